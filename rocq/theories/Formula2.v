(** * Formula2: formulas of indicators on several columns. *)
From Coq Require Import ZArith QArith Qcanon Bool List String PeanoNat Lia.
From Verif Require Import Num NumFacts RoundFacts Pandas Frame Ind SeriesFacts Lengths Cells RangeSpec RangeFacts RangeMore Signal Api ApiSpec IndSpec ValueSpec ValueFacts ValueMore Recur FormulaSpec Starts Formula.
Import ListNotations.
Open Scope list_scope. Open Scope Qc_scope.

Lemma npmax_fin a b : npmax (Fin a) (Fin b) = Fin (larger a b).
Proof. unfold npmax, larger. cbn. destruct (qltb a b); reflexivity. Qed.
Lemma npmin_fin a b : npmin (Fin a) (Fin b) = Fin (smaller a b).
Proof. unfold npmin, smaller. cbn. destruct (qltb b a); reflexivity. Qed.
Lemma max_nan_2 a b : max_nan [Fin a; Fin b] = Fin (larger a b).
Proof. unfold max_nan. cbn [fold_left]. apply npmax_fin. Qed.
Lemma min_nan_2 a b : min_nan [Fin a; Fin b] = Fin (smaller a b).
Proof. unfold min_nan. cbn [fold_left]. apply npmin_fin. Qed.
Lemma max_nan_3 a b c : max_nan [Fin a; Fin b; Fin c] = Fin (larger3 a b c).
Proof. unfold max_nan. cbn [fold_left]. rewrite !npmax_fin. reflexivity. Qed.
Lemma max_skip_3 a b c : max_skip [Fin a; Fin b; Fin c] = Fin (larger3 a b c).
Proof. unfold max_skip. cbn [present filter isnan negb fold_left]. rewrite !npmax_fin. reflexivity. Qed.

Lemma span_01 p : (0 < p)%nat -> 0 < span p /\ span p <= 1.
Proof. exact (span_alpha_range p). Qed.
Lemma ema_pos al f m : 0 < al /\ al <= 1 -> (forall j, (j <= m)%nat -> 0 < f j) -> 0 < ema al f m.
Proof.
  intros [A B]. induction m; intro H; cbn [ema]; [auto|]. assert (0 < f (S m)) by auto. assert (0 < ema al f m) by auto. qnra.
Qed.

Section Cols.
  Variables (n k : nat) (o h l c v : series) (ox hx lx cx vx : nat -> Qc).
  Hypothesis K : (k < n)%nat.

  Section WithHL.
  Hypothesis H : complete_as n h hx.
  Hypothesis L : complete_as n l lx.
  Let H0 := st_complete n h hx H.
  Let L0 := st_complete n l lx L.
  Let LH := st_len _ _ _ _ H0.
  Let LL := st_len _ _ _ _ L0.

  Lemma range_st : starts n 0 (ssub h l) (fun j => hx j - lx j).
  Proof. exact (st_sub n 0 0 h l hx lx H0 L0). Qed.
  Lemma mi_at : (forall j, (j < n)%nat -> lx j < hx j) ->
    let e := ema_from 0 9 (fun j => hx j - lx j) in let e2 := ema_from 8 9 e in
    nth k (mi h l) NaN = from 40 k (Fin (r4 (sum_last (fun j => e j / e2 j) 25 k))).
  Proof.
    intros R e e2. unfold mi. pose proof (st_ewm n 0 9 9 _ _ range_st ltac:(lia)) as E. pose proof (st_ewm n 8 9 9 _ _ E ltac:(lia)) as E2.
    fold e in E. fold e in E2. fold e2 in E2.
    assert (PE : forall j, (j < n)%nat -> 0 < e j).
    { intros j J. apply ema_pos; [apply span_01; lia|]. intros i I. assert (lx (0 + i)%nat < hx (0 + i)%nat) by (apply R; lia). qlra. }
    assert (PE2 : forall j, (8 <= j < n)%nat -> 0 < e2 j).
    { intros j J. apply ema_pos; [apply span_01; lia|]. intros i I. apply PE. lia. }
    eapply st_end; [apply st_round, st_roll_sum; [apply (st_div n 8 16 _ _ _ _ E E2)|lia]|auto|reflexivity|reflexivity].
    intros j A J. apply qc_pos_neq0. apply PE2. change (8 + 9 - 1)%nat with 16%nat in A. lia.
  Qed.
  Lemma vch_at p m : (0 < p)%nat -> let e := ema_from 0 p (fun j => hx j - lx j) in
    nth k (vch p m h l) NaN = from (p - 1 + m) k (rn (ratio (zq 100 * (e k - e (k - m)%nat)) (e (k - m)%nat))).
  Proof.
    intros P e. unfold vch. rewrite nth_sround.
    pose proof (st_ewm n 0 p p _ _ range_st P) as E. fold e in E. replace (0 + p - 1)%nat with (p - 1)%nat in E by lia.
    pose proof (st_shift _ _ _ _ m E) as E'. pose proof (st_len _ _ _ _ E). pose proof (st_len _ _ _ _ E').
    set (es := ewm p p (ssub h l)) in *. set (es' := shift m es) in *.
    unfold scale, sdiv, ssub. cell. rewrite (st_cell _ _ _ _ k E), (st_cell _ _ _ _ k E') by auto. fromcases.
    cbn [nsub nneg nadd]. change (F 100) with (Fin (zq 100)). change (ndiv (Fin ?a) (Fin ?b)) with (ratio a b).
    rewrite ratio_scale by (apply zq_pos; reflexivity). reflexivity.
  Qed.
  Lemma mfi_at : complete_as n v vx -> nth k (mfi h l v) NaN = nround 10 (ratio (hx k - lx k) (vx k)).
  Proof.
    intros [LV V]. unfold mfi. rewrite nth_sround. pose proof (proj2 H) as HH. pose proof (proj2 L) as HL. unfold sdiv, ssub. cell. rewrite HH, HL, V by auto. reflexivity.
  Qed.
  Lemma emv_raw_st : complete_as n v vx -> (forall j, (j < n)%nat -> lx j <> hx j /\ vx j <> 0) -> starts n 1 (emv_raw h l v) (ease hx lx vx).
  Proof.
    intros VC NZ. pose proof (st_complete n v vx VC) as V0. unfold emv_raw.
    assert (B : starts n 0 (sdiv v (smap (fun x => nmul x (F 10000)) (ssub h l))) (box hx lx vx)).
    { eapply st_ext; [apply (st_div n 0 0 _ _ vx (fun j => (hx j - lx j) * zq 10000)); auto|].
      - apply (st_map n 0 _ _ _ _ range_st); auto.
      - intros j _ J E. destruct (NZ j J) as [N _]. apply Qcmult_integral in E as [E|E]; [apply N; symmetry; replace (hx j) with (hx j - lx j + lx j) by ring; rewrite E; ring|].
        revert E. apply zq_neq0. discriminate.
      - intros j _ _. unfold box. f_equal. ring. }
    assert (A : starts n 1 (scale (D 1 2) (ssub (sadd h l) (sadd (shift 1 h) (shift 1 l)))) (fun j => middle hx lx j - middle hx lx (j - 1))).
    { eapply st_ext; [apply st_scale; apply (st_sub n 0 1); [apply (st_add n 0 0); eauto|apply (st_add n 1 1); [apply (st_shift n 0)|apply (st_shift n 0)]; eauto]|].
      intros j _ _. cbv beta. unfold middle. change (Q2Qc (1 # 2)) with (Q2Qc (1 # 2)).
      replace (Q2Qc (1 # 2)) with (1 / zq 2) by (apply Qc_is_canon; reflexivity). field. apply zq_neq0. discriminate. }
    apply (st_div n 1 0 _ _ _ _ A B). intros j _ J E. destruct (NZ j J) as [N1 N2]. unfold box in E.
    apply N2. replace (vx j) with (vx j / (zq 10000 * (hx j - lx j)) * (zq 10000 * (hx j - lx j))).
    - rewrite E. ring.
    - apply qcdiv_mul. intro X. apply Qcmult_integral in X as [X|X]; [revert X; apply zq_neq0; discriminate|].
      apply N1. symmetry. replace (hx j) with (hx j - lx j + lx j) by ring. rewrite X. ring.
  Qed.
  Lemma emv_at p : (0 < p)%nat -> complete_as n v vx -> (forall j, (j < n)%nat -> lx j <> hx j /\ vx j <> 0) ->
    nth k (emv h l v) NaN = from 1 k (Fin (r4 (ease hx lx vx k))) /\
    nth k (emv_ma p h l v) NaN = from p k (Fin (r4 (mean_last (ease hx lx vx) p k))).
  Proof.
    intros P V NZ. pose proof (emv_raw_st V NZ) as E. split.
    - unfold emv. eapply st_end; [apply st_round; exact E|auto|reflexivity|reflexivity].
    - unfold emv_ma. eapply st_end; [apply st_round, st_roll_mean; [exact E|auto]|auto|lia|reflexivity].
  Qed.

  Section WithHLC.
  Hypothesis C : complete_as n c cx.
  Let C0 := st_complete n c cx C.
  Let LC := st_len _ _ _ _ C0.
  Lemma wr_at p : (0 < p)%nat ->
    nth k (wr p h l c) NaN = from (p - 1) k (rn (nmul (Fin (- zq 100)) (ratio (max_last hx p k - cx k) (max_last hx p k - min_last lx p k)))).
  Proof.
    intro P. unfold wr. rewrite nth_sround. pose proof (st_roll_max n 0 p h hx H0 P) as M. pose proof (st_roll_min n 0 p l lx L0 P) as M'.
    pose proof (st_len _ _ _ _ M). pose proof (st_len _ _ _ _ M'). pose proof (proj2 C) as HC.
    unfold scale, sdiv, ssub. cell. rewrite (st_cell _ _ _ _ k M), (st_cell _ _ _ _ k M'), HC by auto. fromcases.
  Qed.
  Lemma so_k_at p s i : (i < n)%nat -> (0 < p)%nat -> (0 < s)%nat ->
    nth i (so_k p s h l c) NaN = from (p + s - 2) i
      (rn (ratio (zq 100 * sum_last (fun j => cx j - min_last lx p j) s i) (sum_last (fun j => max_last hx p j - min_last lx p j) s i))).
  Proof.
    intros I P Q. unfold so_k. rewrite nth_sround. pose proof (st_roll_max n 0 p h hx H0 P) as M. pose proof (st_roll_min n 0 p l lx L0 P) as M'.
    assert (A : starts n (p + s - 2) (roll_sum s (ssub c (roll_min p p l))) (sum_last (fun j => cx j - min_last lx p j) s)).
    { pose proof (st_roll_sum _ _ s _ _ (st_sub _ _ _ _ _ _ _ C0 M') Q) as A. replace (p + s - 2)%nat with (Nat.max 0 (0 + p - 1) + s - 1)%nat by lia. exact A. }
    assert (B : starts n (p + s - 2) (roll_sum s (ssub (roll_max p p h) (roll_min p p l))) (sum_last (fun j => max_last hx p j - min_last lx p j) s)).
    { pose proof (st_roll_sum _ _ s _ _ (st_sub _ _ _ _ _ _ _ M M') Q) as B. replace (p + s - 2)%nat with (Nat.max (0 + p - 1) (0 + p - 1) + s - 1)%nat by lia. exact B. }
    pose proof (st_len _ _ _ _ A). pose proof (st_len _ _ _ _ B).
    set (a := roll_sum s (ssub c (roll_min p p l))) in *. set (b := roll_sum s (ssub (roll_max p p h) (roll_min p p l))) in *.
    unfold sdiv, scale. cell. rewrite (st_cell _ _ _ _ i A), (st_cell _ _ _ _ i B) by auto. fromcases.
  Qed.
  Lemma so_d_simple_at ora p s d : (0 < p)%nat -> (0 < s)%nat -> (0 < d)%nat ->
    (forall j, (p + s - 2 <= j < n)%nat -> sum_last (fun i => max_last hx p i - min_last lx p i) s j <> 0) ->
    let fast j := r4 (zq 100 * sum_last (fun i => cx i - min_last lx p i) s j / sum_last (fun i => max_last hx p i - min_last lx p i) s j) in
    nth k (so_d ora p s d DSimple h l c) NaN = from (p + s + d - 3) k (Fin (r4 (mean_last fast d k))).
  Proof.
    intros P Q R NZ fast. unfold so_d.
    assert (F0 : starts n (p + s - 2) (so_k p s h l c) fast).
    { split; [lens|]. intros j J. rewrite so_k_at by auto. unfold from. destruct (Nat.ltb_spec j (p + s - 2)); auto. unfold ratio. rewrite ndiv_fin by (apply NZ; lia). reflexivity. }
    eapply st_end; [apply st_round, st_roll_mean; [exact F0|auto]|auto|lia|reflexivity].
  Qed.
  Lemma smi_at p s d : (0 < p)%nat -> (0 < s)%nat -> (0 < d)%nat ->
    let dist j := cx j - (max_last hx p j + min_last lx p j) / zq 2 in let diff j := max_last hx p j - min_last lx p j in
    let twice f := ema_from (p + s - 2) d (ema_from (p - 1) s f) in
    nth k (smi p s d h l c) NaN = from (p + s + d - 3) k (rn (ratio (zq 100 * twice dist k) (twice diff k / zq 2))).
  Proof.
    intros P Q R dist diff twice. unfold smi. rewrite nth_sround. pose proof (st_roll_max n 0 p h hx H0 P) as M. pose proof (st_roll_min n 0 p l lx L0 P) as M'.
    replace (0 + p - 1)%nat with (p - 1)%nat in * by lia.
    assert (A : starts n (p - 1) (ssub c (sdivc (sadd (roll_max p p h) (roll_min p p l)) (F 2))) dist).
    { pose proof (st_sub _ _ _ _ _ _ _ C0 (st_divc _ _ _ _ (zq 2) (st_add _ _ _ _ _ _ _ M M') (zq_neq0 2 ltac:(discriminate)))) as A.
      replace (Nat.max 0 (Nat.max (p - 1) (p - 1))) with (p - 1)%nat in A by lia. exact A. }
    assert (B : starts n (p - 1) (ssub (roll_max p p h) (roll_min p p l)) diff).
    { pose proof (st_sub _ _ _ _ _ _ _ M M') as B. rewrite Nat.max_id in B. exact B. }
    assert (T : forall x f, starts n (p - 1) x f -> starts n (p + s + d - 3) (ewm d d (ewm s s x)) (twice f)).
    { intros x f X. pose proof (st_ewm _ _ s s _ _ X Q) as Y. replace (p - 1 + s - 1)%nat with (p + s - 2)%nat in Y by lia.
      pose proof (st_ewm _ _ d d _ _ Y R) as Z. replace (p + s - 2 + d - 1)%nat with (p + s + d - 3)%nat in Z by lia. exact Z. }
    pose proof (T _ _ A) as TA. pose proof (T _ _ B) as TB. pose proof (st_len _ _ _ _ TA). pose proof (st_len _ _ _ _ TB).
    cbv zeta. set (a := ewm d d (ewm s s (ssub c _))) in *. set (b := ewm d d (ewm s s (ssub (roll_max p p h) _))) in *.
    unfold scale, sdiv. cell. rewrite (st_cell _ _ _ _ k TA), (st_cell _ _ _ _ k TB) by auto. fromcases.
    change (F 100) with (Fin (zq 100)). change (nmul (D 1 2) (Fin ?y)) with (Fin (Q2Qc (1 # 2) * y)). change (ndiv (Fin ?a) (Fin ?b)) with (ratio a b). rewrite ratio_scale by (apply zq_pos; reflexivity).
    unfold rn. do 2 f_equal. replace (Q2Qc (1 # 2)) with (1 / zq 2) by (apply Qc_is_canon; reflexivity). field. apply zq_neq0. discriminate.
  Qed.
  Lemma typical_st : starts n 0 (cci_tp h l c) (typical hx lx cx).
  Proof.
    pose proof (proj2 H) as HH. pose proof (proj2 L) as HL. pose proof (proj2 C) as HC. split; [lens|]. intros j J. unfold cci_tp, sdivc, row3. cell. rewrite HH, HL, HC by auto.
    unfold sum_skip. cbn [present filter isnan negb nsum fold_left nadd]. unfold nsum. cbn [fold_left nadd].
    change (F 3) with (Fin (zq 3)). rewrite ndiv_fin by (apply zq_neq0; discriminate). unfold from. cbn. f_equal. unfold typical. f_equal. ring.
  Qed.
  Lemma cci_at p : (0 < p)%nat -> let tp := typical hx lx cx in let sma := mean_last tp p k in
    let md := mean_last (fun j => abs (sma - tp j)) p k in
    nth k (cci p h l c) NaN = from (p - 1) k (rn (ratio (tp k - sma) (Q2Qc (15 # 1000) * md))).
  Proof.
    intros P tp0 sma md. unfold cci. rewrite nth_sround. pose proof typical_st as T. set (t := cci_tp h l c) in *.
    pose proof (st_roll_mean _ _ p _ _ T P) as M. replace (0 + p - 1)%nat with (p - 1)%nat in M by lia. set (m := roll_mean p t) in *.
    assert (LT := st_len _ _ _ _ T). assert (LM := st_len _ _ _ _ M). assert (LD : length (cci_diff p t m) = n) by (apply ln_cci_diff; auto).
    unfold sdiv, ssub, sdivc, scale. cell. rewrite (st_cell _ _ _ _ k T), (st_cell _ _ _ _ k M) by auto.
    unfold from at 1. cbn [Nat.ltb Nat.leb]. unfold cci_diff. rewrite (nth_map _ 0%nat) by (rewrite seq_length; lia). rewrite seq_nth by lia.
    rewrite Nat.add_0_l. destruct (Nat.leb_spec p (S k)) as [Q|Q]; [|fromcases].
    rewrite !from_ge by lia. rewrite (st_cell _ _ _ _ k M), from_ge by lia. fold tp0. fold sma.
    assert (E : map (fun t0 => nabs (nsub (Fin sma) t0)) (window p k t) = map Fin (map (fun j => abs (sma - tp0 j)) (seq (S k - p) p))).
    { apply (list_nth_eq _ _ NaN); [rewrite !map_length, seq_length, window_len by lia; lia|].
      intros i I. rewrite map_length, window_len in I by lia. rewrite (nth_map _ NaN) by (rewrite window_len by lia; lia).
      rewrite nth_window by lia. rewrite (st_cell _ _ _ _ _ T), from_ge by lia. rewrite map_map, (nth_map _ 0%nat) by (rewrite seq_length; lia).
      rewrite seq_nth by lia. reflexivity. }
    rewrite E, nsum_fin, qsum_seq. unfold nn. cbn [nsub nneg nadd nmul D]. change (qnat p) with (nq p).
    rewrite ndiv_fin by (apply nn_pos; auto). unfold rn, ratio. do 3 f_equal. unfold md, mean_last, sum_last. field. apply nn_pos; auto.
  Qed.
  Lemma true_range_nan_st : starts n 1 (true_range_nan h l c) (true_range hx lx cx).
  Proof.
    pose proof (proj2 H) as HH. pose proof (proj2 L) as HL. pose proof (proj2 C) as HC. split; [lens|]. intros j J. unfold true_range_nan, row3, ssub. cell. unfold from.
    destruct (Nat.ltb_spec j 1).
    - rewrite HH, HL by auto. reflexivity.
    - destruct j as [|j]; [lia|]. rewrite HH, HL by auto. cbn [Nat.sub]. rewrite Nat.sub_0_r. rewrite HC by lia. apply max_nan_3.
  Qed.
  Lemma true_range_skip_st : starts n 0 (true_range_skip h l c) (true_range hx lx cx).
  Proof.
    pose proof (proj2 H) as HH. pose proof (proj2 L) as HL. pose proof (proj2 C) as HC. split; [apply ln_true_range_skip; auto|]. intros j J. unfold true_range_skip, row3, ssub. cell.
    destruct (Nat.ltb_spec j 1).
    - rewrite HH, HL by auto. replace j with 0%nat by lia. reflexivity.
    - destruct j as [|j]; [lia|]. rewrite HH, HL by auto. cbn [Nat.sub]. rewrite Nat.sub_0_r. rewrite HC by lia. apply max_skip_3.
  Qed.
  Lemma atr_at : nth k (atr h l c) NaN =
    from 13 k (Fin (r4 (run_from 13 (wilders 14) (mean_last (true_range hx lx cx) 14 13) (true_range hx lx cx) k))).
  Proof.
    unfold atr. rewrite nth_sround. pose proof true_range_skip_st as T. set (t := true_range_skip h l c) in *. assert (LT := st_len _ _ _ _ T).
    unfold from. destruct (Nat.ltb_spec k 13) as [A|A].
    - rewrite app_nth1 by (rewrite repeat_length; auto). rewrite nth_repeat_any by auto. reflexivity.
    - rewrite app_nth2 by (rewrite repeat_length; auto). rewrite repeat_length.
      set (f := true_range hx lx cx) in *. set (m := mean_last f 14 13).
      assert (E : mean_skip (firstn 14 t) = Fin m) by (rewrite (st_mean_skip n 0 t f 14 T) by lia; reflexivity). rewrite E.
      assert (Q : starts (n - 13) 0 (Fin m :: skipn 14 t) (fun j => match j with O => m | S i => f (14 + i)%nat end)).
      { split; [cbn [length]; rewrite skipn_length; lia|]. intros [|j] J; [reflexivity|]. cbn [nth]. rewrite nth_skipn. rewrite (st_cell _ _ _ _ _ T) by lia. reflexivity. }
      pose proof (st_ewm_alpha (Q2Qc (1 # 14)) 1 ltac:(lia) _ _ _ _ Q) as Z. rewrite (st_cell _ _ _ _ (k - 13) Z), from_ge by lia.
      cbn [nround]. unfold r4, run_from. do 2 f_equal. rewrite Nat.sub_0_r. induction (k - 13)%nat as [|i IH]; [reflexivity|].
      cbn [ema run]. rewrite IH. unfold wilders. replace (Q2Qc (1 # 14)) with (1 / nq 14) by (apply Qc_is_canon; reflexivity).
      replace (13 + S i)%nat with (14 + i)%nat by lia. cbn [Nat.add]. field. apply nn_pos. lia.
  Qed.
  Lemma uo_low_st : starts n 1 (uo_low l c) (true_low lx cx).
  Proof.
    pose proof (proj2 L) as HL. pose proof (proj2 C) as HC. split; [lens|]. intros j J. unfold uo_low, row2. cell. unfold from.
    destruct (Nat.ltb_spec j 1).
    - rewrite HL by auto. reflexivity.
    - rewrite HL, HC by lia. apply min_nan_2.
  Qed.
  Lemma uo_high_st : starts n 1 (uo_high h c) (true_high hx cx).
  Proof.
    pose proof (proj2 H) as HH. pose proof (proj2 C) as HC. split; [lens|]. intros j J. unfold uo_high, row2. cell. unfold from.
    destruct (Nat.ltb_spec j 1).
    - rewrite HH by auto. reflexivity.
    - rewrite HH, HC by lia. apply max_nan_2.
  Qed.
  Lemma uo_at : let r w := sum_last (pressure lx cx) w k / sum_last (reach hx lx cx) w k in
    (forall w, In w [7; 14; 28]%nat -> (28 <= k)%nat -> sum_last (reach hx lx cx) w k <> 0) ->
    nth k (uo h l c) NaN = from 28 k (Fin (r4 (zq 100 * (zq 4 * r 7%nat + zq 2 * r 14%nat + r 28%nat) / zq 7))).
  Proof.
    intros r NZ. unfold uo. rewrite nth_sround. pose proof uo_low_st as A. pose proof uo_high_st as B.
    assert (R : forall w, In w [7; 14; 28]%nat -> nth k (uo_ratio w h l c) NaN = from w k (ratio (sum_last (pressure lx cx) w k) (sum_last (reach hx lx cx) w k))).
    { intros w W. assert (0 < w)%nat by (cbn in W; lia). unfold uo_ratio.
      pose proof (st_roll_sum _ _ w _ _ (st_sub _ _ _ _ _ _ _ C0 A) H1) as X. pose proof (st_roll_sum _ _ w _ _ (st_sub _ _ _ _ _ _ _ B A) H1) as Y.
      pose proof (st_len _ _ _ _ X). pose proof (st_len _ _ _ _ Y).
      set (a := roll_sum w (ssub c (uo_low l c))) in *. set (b := roll_sum w (ssub (uo_high h c) (uo_low l c))) in *.
      unfold sdiv. cell. rewrite (st_cell _ _ _ _ k X), (st_cell _ _ _ _ k Y) by auto. fromcases. }
    unfold sdivc, scale, sadd. cell. rewrite !R by (cbn; auto). unfold from.
    destruct (Nat.ltb_spec k 28) as [X|X]; [rewrite (proj1 (proj2 nan_bin)); reflexivity|].
    destruct (Nat.ltb_spec k 7), (Nat.ltb_spec k 14); try lia. unfold ratio. rewrite !ndiv_fin by (apply NZ; [cbn; auto|lia]).
    change (F 100) with (Fin (zq 100)). change (F 4) with (Fin (zq 4)). change (F 2) with (Fin (zq 2)). change (F 7) with (Fin (zq 7)).
    cbn [nmul nadd]. rewrite ndiv_fin by (apply zq_neq0; discriminate). reflexivity.
  Qed.
  Lemma wad_at : nth k (wad c h l) NaN = from 1 k (Fin (r4 (
      if qltb (cx (k - 1)%nat) (cx k) then cx k - true_low lx cx k else if qltb (cx k) (cx (k - 1)%nat) then cx k - true_high hx cx k else 0))).
  Proof.
    pose proof (proj2 H) as HH. pose proof (proj2 L) as HL. pose proof (proj2 C) as HC. unfold wad. rewrite nth_sround.
    set (d := ssub c (shift 1 c)). assert (LD : length d = n) by (subst d; lens).
    assert (ED : nth k d NaN = from 1 k (Fin (change 1 cx k))) by (apply (st_cell n 1); auto; apply (st_diff n c cx C0)).
    rewrite (c_assign (fun x => nltb x (F 0)) d _ _ k n) by lens. rewrite (c_assign (fun x => ngtb x (F 0)) d _ _ k n) by lens.
    rewrite ED. unfold ssub, row2. cell. unfold from. destruct (Nat.ltb_spec k 1) as [A|A].
    - rewrite HC, HL by auto. reflexivity.
    - rewrite !HC, HL, HH by lia. rewrite min_nan_2, max_nan_2. cbn. change (Q2Qc (inject_Z 0)) with 0. unfold change.
      assert (S1 : forall a b, smaller a b = smaller b a).
      { intros a b. unfold smaller. destruct (qltb_spec b a) as [X|X], (qltb_spec a b) as [Y|Y]; auto.
        - exfalso. apply (Qclt_not_le _ _ X). apply Qclt_le_weak; auto.
        - apply Qcnot_lt_le in X, Y. apply Qcle_antisym; auto. }
      assert (S2 : forall a b, larger a b = larger b a).
      { intros a b. unfold larger. destruct (qltb_spec b a) as [X|X], (qltb_spec a b) as [Y|Y]; auto.
        - exfalso. apply (Qclt_not_le _ _ X). apply Qclt_le_weak; auto.
        - apply Qcnot_lt_le in X, Y. apply Qcle_antisym; auto. }
      unfold true_low, true_high. rewrite (S1 (lx k)), (S2 (hx k)).
      destruct (qltb_spec (cx k - cx (k - 1)%nat) 0) as [X|X], (qltb_spec 0 (cx k - cx (k - 1)%nat)) as [Y|Y],
        (qltb_spec (cx (k - 1)%nat) (cx k)) as [Z|Z], (qltb_spec (cx k) (cx (k - 1)%nat)) as [T|T]; try (exfalso; qlra); try reflexivity;
        try (apply Qcnot_lt_le in Z); try (apply Qcnot_lt_le in T); try (apply Qcnot_lt_le in X); try (apply Qcnot_lt_le in Y); try (exfalso; qlra).
      replace (cx k - cx (k - 1)%nat) with 0; [reflexivity|]. apply Qcle_antisym; auto.
  Qed.
  End WithHLC.
  End WithHL.
  Section WithOC.
  Hypothesis O : complete_as n o ox.
  Hypothesis C : complete_as n c cx.
  Let O0 := st_complete n o ox O.
  Let C0 := st_complete n c cx C.
  Lemma qstick_at p : (0 < p)%nat -> nth k (qstick p o c) NaN = from (p - 1) k (Fin (r4 (mean_last (fun j => cx j - ox j) p k))).
  Proof.
    intro P. unfold qstick. eapply st_end; [apply st_round, st_divc; [apply st_roll_sum; [apply (st_sub n 0 0); eauto|auto]|apply (nn_pos p P)]|auto|lia|reflexivity].
  Qed.
  Lemma imi_at p : (0 < p)%nat -> let u := sum_last (fun j => gain (cx j - ox j)) p k in let d := sum_last (fun j => gain (ox j - cx j)) p k in
    nth k (imi p o c) NaN = from (p - 1) k (rn (ratio (zq 100 * u) (u + d))).
  Proof.
    intros P u d. unfold imi. rewrite nth_sround.
    pose proof (st_roll_sum _ _ p _ _ (st_drop_neg _ _ _ _ (st_sub _ _ _ _ _ _ _ C0 O0)) P) as U.
    pose proof (st_roll_sum _ _ p _ _ (st_drop_neg _ _ _ _ (st_sub _ _ _ _ _ _ _ O0 C0)) P) as D.
    pose proof (st_len _ _ _ _ U). pose proof (st_len _ _ _ _ D).
    set (us := roll_sum p (drop_neg (ssub c o))) in *. set (ds := roll_sum p (drop_neg (ssub o c))) in *.
    unfold sdiv, scale, sadd. cell. rewrite (st_cell _ _ _ _ k U), (st_cell _ _ _ _ k D) by auto. fromcases.
  Qed.
  End WithOC.
  Section WithCV.
  Hypothesis H : complete_as n h hx.
  Hypothesis L : complete_as n l lx.
  Hypothesis C : complete_as n c cx.
  Hypothesis V : complete_as n v vx.
  Lemma cmf_at p : (0 < p)%nat -> (forall j, (j < n)%nat -> lx j <= cx j /\ cx j <= hx j /\ lx j < hx j) ->
    nth k (cmf p c v h l) NaN = from (p - 1) k (rn (ratio (sum_last (fun j => adl_move (hx j) (lx j) (cx j) (vx j)) p k) (sum_last vx p k))).
  Proof.
    intros P A. unfold cmf. rewrite nth_sround.
    assert (M : starts n 0 (money_flow c v h l) (fun j => adl_move (hx j) (lx j) (cx j) (vx j))).
    { destruct H as [LH _], L as [LL _], C as [LC _], V as [LV _]. split; [lens|]. intros j J. destruct (A j J) as (A1 & A2 & A3). rewrite (money_flow_cells n c v h l cx vx hx lx) by auto.
      rewrite (proj2 (qltb_iff _ _) A3). reflexivity. }
    pose proof (st_roll_sum _ _ p _ _ M P) as X. pose proof (st_roll_sum _ _ p _ _ (st_complete _ _ _ V) P) as Y.
    pose proof (st_len _ _ _ _ X). pose proof (st_len _ _ _ _ Y).
    set (a := roll_sum p (money_flow c v h l)) in *. set (b := roll_sum p v) in *.
    unfold sdiv. cell. rewrite (st_cell _ _ _ _ k X), (st_cell _ _ _ _ k Y) by auto. fromcases.
  Qed.
  End WithCV.
End Cols.
