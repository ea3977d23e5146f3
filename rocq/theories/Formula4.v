(** * Formula4: relative volatility, directional movement, range indicator, Klinger, swing index. *)
From Coq Require Import ZArith QArith Qcanon Bool List String PeanoNat Lia.
From Verif Require Import Num NumFacts RoundFacts Pandas Frame Ind SeriesFacts Lengths Cells RangeSpec RangeFacts RangeMore Signal Api ApiSpec IndSpec ValueSpec ValueFacts ValueMore Recur FormulaSpec Starts Formula Formula2 Formula3.
Import ListNotations.
Open Scope list_scope. Open Scope Qc_scope.

Lemma nleb_fin_neg a b : nleb (Fin a) (Fin b) = negb (qltb b a).
Proof.
  destruct (qltb_spec b a) as [X|X]; cbn [negb].
  - apply not_true_iff_false. intro Y. apply nleb_fin in Y. qlra.
  - apply nleb_fin. apply Qcnot_lt_le. auto.
Qed.
Section Rvi.
  Variables (n k p : nat) (o : oracle) (s : series) (x : nat -> Qc).
  Hypothesis C : complete_as n s x.
  Hypothesis P : (0 < p)%nat.
  Let C0 : starts n 0 s x := st_complete n s x C.
  Let LC := st_len _ _ _ _ C0.
  Let DF : starts n 1 (sdiff s) (change 1 x) := st_diff _ _ _ C0.
  Lemma dev_st : starts n 9 (roll_std (o_sqrt o) 10 s) (deviation (o_sqrt o) x).
  Proof. apply (st_roll_std n 0 10 s x C0). lia. Qed.
  Lemma rvi_up_later : later n 9 (rvi_up o s) (rising (o_sqrt o) x).
  Proof.
    pose proof dev_st as V. pose proof (st_len _ _ _ _ DF). pose proof (st_len _ _ _ _ V). assert (LN : length (rvi_up o s) = n) by lens. unfold rvi_up in *. set (dv := roll_std (o_sqrt o) 10 s) in *. set (df := sdiff s) in *.
    split; [exact LN|]. intros j J. assert (JN : (j < n)%nat) by lia. rewrite LC.
    rewrite (c_assign _ _ _ _ j n) by (rewrite ?repeat_length; auto). rewrite c_repeat by auto.
    rewrite (st_cell _ _ _ _ j DF), (st_cell _ _ _ _ j V), !from_ge by lia. unfold rising. cbn.
    change (Q2Qc (inject_Z 0)) with 0. destruct (qltb 0 (change 1 x j)); reflexivity.
  Qed.
  Lemma rvi_dn_later : later n 9 (rvi_dn o s) (falling (o_sqrt o) x).
  Proof.
    pose proof dev_st as V. pose proof (st_len _ _ _ _ DF). pose proof (st_len _ _ _ _ V). assert (LN : length (rvi_dn o s) = n) by lens. unfold rvi_dn in *. set (dv := roll_std (o_sqrt o) 10 s) in *. set (df := sdiff s) in *.
    split; [exact LN|]. intros j J. assert (JN : (j < n)%nat) by lia. rewrite LC.
    rewrite (c_assign _ _ _ _ j n) by (rewrite ?repeat_length; auto). rewrite c_repeat by auto.
    rewrite (st_cell _ _ _ _ j DF), (st_cell _ _ _ _ j V), !from_ge by lia. unfold falling. cbn.
    change (Q2Qc (inject_Z 0)) with 0. destruct (qltb (change 1 x j) 0); reflexivity.
  Qed.
  Lemma rvi_smooth_st t f : later n 9 t f -> starts n (p + 8) (rvi_smooth p t) (wilder_from 9 p f).
  Proof.
    intro L. unfold rvi_smooth, wilder_from. replace (9 + p - 1)%nat with (p + 8)%nat by lia.
    apply (later_seeded n t f).
    - destruct L as [L1 L2]. split; auto. intros; apply L2; lia.
    - intro N. rewrite (later_mean_slice n 9 t f 9 (p + 9) L) by lia. unfold mean_last, sum_last. replace (p + 9 - 9)%nat with p by lia. do 2 f_equal.
      apply total_ext. intros j J. f_equal. lia.
    - intros. apply wilder_fin; auto.
  Qed.
  Lemma rvi_half_at : (k < n)%nat ->
    nth k (rvi_half o p s) NaN = from (p + 8) k (ratio (zq 100 * wilder_from 9 p (rising (o_sqrt o) x) k)
      (wilder_from 9 p (rising (o_sqrt o) x) k + wilder_from 9 p (falling (o_sqrt o) x) k)).
  Proof.
    intro K. unfold rvi_half. pose proof (rvi_smooth_st _ _ rvi_up_later) as U. pose proof (rvi_smooth_st _ _ rvi_dn_later) as D.
    pose proof (st_len _ _ _ _ U). pose proof (st_len _ _ _ _ D).
    set (us := rvi_smooth p (rvi_up o s)) in *. set (ds := rvi_smooth p (rvi_dn o s)) in *.
    unfold sdiv, scale, sadd. cell. rewrite (st_cell _ _ _ _ k U), (st_cell _ _ _ _ k D) by auto.
    unfold from. destruct (k <? p + 8)%nat; reflexivity.
  Qed.
End Rvi.

Section Cols.
  Variables (n k : nat) (o h l c v : series) (ox hx lx cx vx : nat -> Qc).
  Hypothesis O : complete_as n o ox.
  Hypothesis H : complete_as n h hx.
  Hypothesis L : complete_as n l lx.
  Hypothesis C : complete_as n c cx.
  Hypothesis V : complete_as n v vx.
  Hypothesis K : (k < n)%nat.
  Let O0 := st_complete _ _ _ O. Let H0 := st_complete _ _ _ H. Let L0 := st_complete _ _ _ L. Let C0 := st_complete _ _ _ C. Let V0 := st_complete _ _ _ V.
  Let LO := st_len _ _ _ _ O0. Let LH := st_len _ _ _ _ H0. Let LL := st_len _ _ _ _ L0. Let LC := st_len _ _ _ _ C0. Let LV := st_len _ _ _ _ V0.

  Lemma rvi_at or p : (0 < p)%nat ->
    let up f := wilder_from 9 p (rising (o_sqrt or) f) k in let dn f := wilder_from 9 p (falling (o_sqrt or) f) k in
    nth k (rvi or p h l) NaN = from (p + 8) k (rn (ndiv (nadd (ratio (zq 100 * up hx) (up hx + dn hx)) (ratio (zq 100 * up lx) (up lx + dn lx))) (Fin (zq 2)))).
  Proof.
    intros P up dn. unfold rvi. rewrite nth_sround.
    pose proof (rvi_half_at n k p or h hx H P K) as A. pose proof (rvi_half_at n k p or l lx L P K) as B.
    assert (LA : length (rvi_half or p h) = n) by lens. assert (LB : length (rvi_half or p l) = n) by lens.
    unfold sdivc, sadd. cell. rewrite A, B. unfold from. destruct (k <? p + 8)%nat; reflexivity.
  Qed.

  (** directional movement *)
  Lemma plus_st : starts n 1 (plus_dm h l) (plus_move hx lx).
  Proof.
    split; [lens|]. pose proof (proj2 H) as HH. pose proof (proj2 L) as HL. intros j J. unfold plus_dm, dm_first, sdiff, ssub. cell. unfold from.
    destruct (Nat.ltb_spec j 1); auto. rewrite !HH, !HL by lia. cbn. unfold plus_move, down_move, up_move. change (Q2Qc (inject_Z 0)) with 0.
    destruct (_ && _); reflexivity.
  Qed.
  Lemma minus_st : starts n 1 (minus_dm h l) (minus_move hx lx).
  Proof.
    split; [lens|]. pose proof (proj2 H) as HH. pose proof (proj2 L) as HL. intros j J. unfold minus_dm, dm_first, sdiff, ssub. cell. unfold from.
    destruct (Nat.ltb_spec j 1); auto. rewrite !HH, !HL by lia. cbn. unfold minus_move, down_move, up_move. change (Q2Qc (inject_Z 0)) with 0.
    destruct (_ && _); reflexivity.
  Qed.
  Lemma dmi_smooth_st s f : starts n 1 s f -> starts n 13 (dmi_smooth s) (running f).
  Proof.
    intro S0. unfold dmi_smooth. apply (st_seeded n 1 s f); [auto|lia| |].
    - intro N. rewrite (st_sum_skip n 1 s f 14 S0) by lia. reflexivity.
    - intros x y. change (F 14) with (Fin (zq 14)). rewrite ndiv_fin by (apply zq_neq0; lia). reflexivity.
  Qed.
  Hypothesis TR : forall j, (14 <= j < n)%nat -> running (true_range hx lx cx) j <> 0.
  Notation di := (directional hx lx cx).
  Lemma dmi_di_st s f : starts n 1 s f -> starts n 14 (dmi_di s (true_range_nan h l c)) (di f).
  Proof.
    intro S0. unfold dmi_di. pose proof (dmi_smooth_st _ _ S0) as A.
    pose proof (dmi_smooth_st _ _ (true_range_nan_st n k h l c hx lx cx K H L C)) as B. change (F 100) with (Fin (zq 100)).
    assert (LA := st_len _ _ _ _ A). assert (LB := st_len _ _ _ _ B).
    set (sa := dmi_smooth s) in *. set (sb := dmi_smooth (true_range_nan h l c)) in *.
    split; [lens|]. intros j J. unfold sdiv, scale. cell. unfold from. destruct (Nat.ltb_spec j 14); auto.
    rewrite (st_cell _ _ _ _ j A), (st_cell _ _ _ _ j B), !from_ge by lia. cbn [nmul]. rewrite ndiv_fin; [reflexivity|]. apply TR. lia.
  Qed.
  Lemma di_at s f : starts n 1 s f -> nth k (sround 4 (dmi_di s (true_range_nan h l c))) NaN = from 14 k (Fin (r4 (di f k))).
  Proof. intro S0. eapply st_end; [apply st_round, dmi_di_st; eauto|auto|auto|auto]. Qed.
  Notation pd := (plus_di hx lx cx).
  Notation md := (minus_di hx lx cx).
  Notation dx := (dx_line hx lx cx).
  Notation adx := (adx_line hx lx cx).
  Hypothesis SUM : forall j, (14 <= j < n)%nat -> pd j + md j <> 0.
  Lemma abs_neq0 a : a <> 0 -> abs a <> 0.
  Proof. intro A. unfold abs. destruct (qltb a 0); auto. intro X. apply A. qlra. Qed.
  Lemma dx_st : starts n 14 (dmi_dx (dmi_di (plus_dm h l) (true_range_nan h l c)) (dmi_di (minus_dm h l) (true_range_nan h l c))) dx.
  Proof.
    unfold dmi_dx. pose proof (dmi_di_st _ _ plus_st) as A. pose proof (dmi_di_st _ _ minus_st) as B. change (F 100) with (Fin (zq 100)).
    eapply (st_div n 14 14); [apply st_scale, st_abs, (st_sub n 14 14); eauto|apply st_abs, (st_add n 14 14); eauto|].
    intros j A1 A2. cbv beta. apply abs_neq0, SUM. lia.
  Qed.
  Lemma adx_st : starts n 27 (dmi_adx (dmi_dx (dmi_di (plus_dm h l) (true_range_nan h l c)) (dmi_di (minus_dm h l) (true_range_nan h l c)))) adx.
  Proof.
    unfold dmi_adx. apply (st_seeded n 14 _ dx); [apply dx_st|lia| |].
    - intro N. rewrite (st_sum_skip n 14 _ dx 28 dx_st) by lia. change (F 14) with (Fin (zq 14)). rewrite ndiv_fin by (apply zq_neq0; lia). reflexivity.
    - intros x y. change (F 14) with (Fin (zq 14)). change (F 13) with (Fin (zq 13)). cbn [nmul nadd]. rewrite ndiv_fin by (apply zq_neq0; lia). reflexivity.
  Qed.
  Lemma dx_at : nth k (sround 4 (dmi_dx (dmi_di (plus_dm h l) (true_range_nan h l c)) (dmi_di (minus_dm h l) (true_range_nan h l c)))) NaN = from 14 k (Fin (r4 (dx k))).
  Proof. eapply st_end; [apply st_round, dx_st|auto|auto|auto]. Qed.
  Lemma adx_at : nth k (sround 4 (dmi_adx (dmi_dx (dmi_di (plus_dm h l) (true_range_nan h l c)) (dmi_di (minus_dm h l) (true_range_nan h l c))))) NaN = from 27 k (Fin (r4 (adx k))).
  Proof. eapply st_end; [apply st_round, adx_st|auto|auto|auto]. Qed.
  Lemma adxr_at : nth k (sround 4 (dmi_adxr (dmi_adx (dmi_dx (dmi_di (plus_dm h l) (true_range_nan h l c)) (dmi_di (minus_dm h l) (true_range_nan h l c)))))) NaN
    = from 40 k (Fin (r4 ((adx k + adx (k - 13)%nat) / zq 2))).
  Proof.
    unfold dmi_adxr. change (F 2) with (Fin (zq 2)).
    eapply st_end; [apply st_round; eapply st_from_row; [apply st_divc; [apply (st_add n 27 40); [apply adx_st|apply (st_shift n 27 _ adx 13), adx_st]|apply zq_neq0; lia]|lia]|auto|auto|auto].
  Qed.
End Cols.

Section Cols2.
  Variables (n k : nat) (o h l c v : series) (ox hx lx cx vx : nat -> Qc).
  Hypothesis O : complete_as n o ox.
  Hypothesis H : complete_as n h hx.
  Hypothesis L : complete_as n l lx.
  Hypothesis C : complete_as n c cx.
  Hypothesis V : complete_as n v vx.
  Hypothesis K : (k < n)%nat.
  Let O0 := st_complete _ _ _ O. Let H0 := st_complete _ _ _ H. Let L0 := st_complete _ _ _ L. Let C0 := st_complete _ _ _ C. Let V0 := st_complete _ _ _ V.
  Let LO := st_len _ _ _ _ O0. Let LH := st_len _ _ _ _ H0. Let LL := st_len _ _ _ _ L0. Let LC := st_len _ _ _ _ C0. Let LV := st_len _ _ _ _ V0.

  Lemma strain_st : starts n 1 (ri_text h l c) (strain hx lx cx).
  Proof.
    pose proof (true_range_nan_st n k h l c hx lx cx K H L C) as T. pose proof (st_len _ _ _ _ T). pose proof (proj2 C) as HC.
    unfold ri_text. set (tr := true_range_nan h l c) in *. split; [lens|]. intros j J. cell. rewrite (st_cell _ _ _ _ j T J). unfold from.
    destruct (Nat.ltb_spec j 1).
    - rewrite HC by auto. reflexivity.
    - rewrite !HC by lia. unfold ngtb, nltb, strain. destruct (qltb_spec (cx (j - 1)%nat) (cx j)) as [X|X]; auto.
      cbn [nsub nneg nadd]. rewrite ndiv_fin; [reflexivity|]. apply qc_pos_neq0. qlra.
  Qed.
  Lemma place_st r a s f : (0 < r)%nat -> starts n a s f -> starts n (a + r - 1) (ri_range r s) (place r f).
  Proof.
    intros R S0. unfold ri_range. pose proof (st_roll_min n a r s f S0 R) as MN. pose proof (st_roll_max n a r s f S0 R) as MX.
    set (mn := roll_min r r s) in *. set (mx := roll_max r r s) in *.
    pose proof (st_len _ _ _ _ S0). pose proof (st_len _ _ _ _ MN). pose proof (st_len _ _ _ _ MX).
    split; [lens|]. intros j J. unfold sdiv, scale, ssub.
    match goal with |- context [assign (map ?g ?t) ?x ?y] => rewrite (c_assign g t x y j n) by (try (unfold assign); lens) end.
    cell. rewrite (st_cell _ _ _ _ j S0 J), (st_cell _ _ _ _ j MN J), (st_cell _ _ _ _ j MX J).
    destruct (Nat.ltb_spec j (a + r - 1)) as [B|B].
    - rewrite !(from_lt (a + r - 1)) by auto. destruct (from a j (Fin (f j))); reflexivity.
    - rewrite !from_ge by lia. unfold place. change (F 100) with (Fin (zq 100)).
      assert (LE : min_last f r j <= max_last f r j).
      { unfold min_last, max_last. destruct (min_to_spec f (S j - r) (r - 1)) as [_ A]. destruct (max_to_spec f (S j - r) (r - 1)) as [_ A'].
        eapply Qcle_trans; [apply (A (S j - r)%nat); lia|apply A'; lia]. }
      set (m := min_last f r j) in *. set (M := max_last f r j) in *.
      destruct (qltb_spec m M) as [X|X].
      + assert (N : M - m <> 0) by (apply qc_pos_neq0; qlra).
        cbn [nsub nneg nadd nmul]. rewrite ndiv_fin by exact N.
        replace (ngtb (Fin (M + - m)) (F 0)) with true by (symmetry; apply qltb_iff; cbn; change (Q2Qc (inject_Z 0)) with 0; qlra).
        destruct (nleb _ _) eqn:E; [|reflexivity].
        apply nleb_fin in E.
        assert (A : m <= f j).
        { unfold m, min_last. destruct (min_to_spec f (S j - r) (r - 1)) as [_ A]. apply A. lia. }
        assert (Z0 : zq 100 * (f j + - m) / (M + - m) = 0).
        { apply Qcle_antisym; [exact E|]. apply qcdiv_nonneg; [|qlra]. assert (0 <= f j + - m) by qlra. pose proof (zq_pos 100 ltac:(lia)). qnra. }
        assert (Z1 : f j + - m = 0).
        { replace (f j + - m) with ((zq 100 * (f j + - m) / (M + - m)) * (M + - m) / zq 100).
          - rewrite Z0. field. apply zq_neq0; lia.
          - field. split; [exact N|apply zq_neq0; lia]. }
        f_equal. change (f j - m) with (f j + - m). rewrite Z1. field. exact N.
      + assert (EQ : M = m) by (apply Qcle_antisym; [apply Qcnot_lt_le; auto|auto]).
        assert (FJ : f j = m).
        { unfold m, M, min_last, max_last in *. destruct (min_to_spec f (S j - r) (r - 1)) as [_ A]. destruct (max_to_spec f (S j - r) (r - 1)) as [_ A'].
          apply Qcle_antisym; [rewrite <- EQ; apply A'; lia|apply A; lia]. }
        rewrite EQ, FJ. cbn [nsub nneg nadd nmul]. replace (m + - m) with 0 by ring.
        replace (ngtb (Fin 0) (F 0)) with false by reflexivity. replace (nleb (Fin 0) (F 0)) with true by reflexivity. f_equal; ring.
  Qed.
  Lemma ri_at r s : (0 < r)%nat -> (0 < s)%nat ->
    nth k (ri r s h l c) NaN = from (r + s - 1) k (Fin (r4 (ema_from r s (place r (strain hx lx cx)) k))).
  Proof.
    intros R S0. unfold ri. eapply st_end; [apply st_round, st_ewm; [apply (place_st r 1); [auto|apply strain_st]|auto]|auto|lia|].
    intros _. replace (1 + r - 1)%nat with r by lia. reflexivity.
  Qed.

  (** Klinger *)
  Lemma trend_st : starts n 1 (ko_trend h l c) (trend hx lx cx).
  Proof.
    pose proof (proj2 H) as HH. pose proof (proj2 L) as HL. pose proof (proj2 C) as HC.
    assert (SU : starts n 0 (row3 sum_skip h l c) (fun j => hx j + lx j + cx j)).
    { split; [lens|]. intros j J. unfold row3. cell. rewrite HH, HL, HC, from_ge by (auto; lia). cbn. f_equal. ring. }
    unfold ko_trend. eapply (st_map n 1); [apply (st_sub n 0 1 _ _ _ _ SU (st_shift n 0 _ _ 1 SU))|reflexivity|].
    intros j A J. cbn. change (Q2Qc (inject_Z 0)) with 0. change (Q2Qc (inject_Z 1)) with 1. unfold trend.
    set (a := hx j + lx j + cx j). set (b := hx (j - 1)%nat + lx (j - 1)%nat + cx (j - 1)%nat). clearbody a b.
    destruct (qltb_spec b a) as [X|X], (qltb_spec 0 (a - b)) as [Y|Y]; try (apply Qcnot_lt_le in X); try (apply Qcnot_lt_le in Y); try (exfalso; qlra).
    + reflexivity.
    + replace (nleb (Fin (a - b)) (F 0)) with true; [|symmetry; apply nleb_fin; exact Y]. change (Fin (zq (-1)) = Fin (- (1))). f_equal.
  Qed.
  Lemma measure_cells s t : starts n 1 t (trend hx lx cx) -> starts n 0 s (fun j => hx j - lx j) -> starts n 0 (ko_cm t s) (measure hx lx cx).
  Proof.
    intros T S0. pose proof (st_len _ _ _ _ T). pose proof (st_len _ _ _ _ S0).
    assert (LL1 : length (combine (combine t (shift 1 t)) (combine s (shift 1 s))) = n).
    { rewrite !combine_length, !len_shift. lia. }
    split; [unfold ko_cm; rewrite len_seeded; auto|]. intros j J. rewrite from_ge by lia. unfold ko_cm. induction j as [|j IH].
    - rewrite seeded_at by lia. reflexivity.
    - rewrite (seeded_next _ _ _ _ ((NaN, NaN), (NaN, NaN))) by lia. rewrite IH by lia.
      rewrite !combine_nth by (rewrite ?combine_length, ?len_shift; lia). cell.
      rewrite (st_cell _ _ _ _ (S j) T), (st_cell _ _ _ _ (S j - 1) T), (st_cell _ _ _ _ (S j) S0), (st_cell _ _ _ _ (S j - 1) S0) by lia.
      rewrite !(from_ge 0) by lia. rewrite (from_ge 1 (S j)) by lia. cbn [Nat.sub]. rewrite Nat.sub_0_r.
      destruct j as [|j].
      + reflexivity.
      + rewrite from_ge by lia. change (S (S j) <? 1)%nat with false. cbv iota.
        change (measure hx lx cx (S (S j))) with (if true && qeqb (trend hx lx cx (S (S j))) (trend hx lx cx (S j))
          then measure hx lx cx (S j) + (hx (S (S j)) - lx (S (S j))) else (hx (S j) - lx (S j)) + (hx (S (S j)) - lx (S (S j)))).
        set (m := measure hx lx cx (S j)). cbn [neqb andb]. destruct (qeqb _ _); reflexivity.
  Qed.
  Hypothesis M : forall j, (1 <= j < n)%nat -> measure hx lx cx j <> 0.
  Lemma force_st : starts n 1 (ko_force h l c v) (force hx lx cx vx).
  Proof.
    pose proof trend_st as T. pose proof (range_st n h l hx lx H L) as R. pose proof (measure_cells _ _ T R) as Me.
    unfold ko_force. pose proof (st_len _ _ _ _ T). pose proof (st_len _ _ _ _ R). pose proof (st_len _ _ _ _ Me). pose proof (proj2 V) as HV.
    set (t := ko_trend h l c) in *. set (s := ssub h l) in *. set (m := ko_cm t s) in *.
    split; [lens|]. intros j J. unfold smul, sdiv. cell. rewrite (st_cell _ _ _ _ j T J), (st_cell _ _ _ _ j R J), (st_cell _ _ _ _ j Me J). rewrite HV by auto.
    rewrite !(from_ge 0) by lia. unfold from. destruct (Nat.ltb_spec j 1) as [B|B].
    - assert (MN : forall y, nmul y NaN = NaN) by (intro y; destruct y; reflexivity). rewrite MN. reflexivity.
    - rewrite ndiv_fin by (apply M; lia). reflexivity.
  Qed.
  Lemma ko_at : nth k (ko h l c v) NaN = from 55 k (Fin (r4 (ema_from 1 34 (force hx lx cx vx) k - ema_from 1 55 (force hx lx cx vx) k))).
  Proof.
    unfold ko. eapply st_end; [apply st_round; eapply st_sub; apply st_ewm; try apply force_st; lia|auto|reflexivity|auto].
  Qed.
End Cols2.

Section Swing.
  Variables (n k : nat) (o h l c : series) (ox hx lx cx : nat -> Qc).
  Hypothesis O : complete_as n o ox.
  Hypothesis H : complete_as n h hx.
  Hypothesis L : complete_as n l lx.
  Hypothesis C : complete_as n c cx.
  Hypothesis K : (k < n)%nat.
  Let O0 := st_complete _ _ _ O. Let H0 := st_complete _ _ _ H. Let L0 := st_complete _ _ _ L. Let C0 := st_complete _ _ _ C.
  Let LO := st_len _ _ _ _ O0. Let LH := st_len _ _ _ _ H0. Let LL := st_len _ _ _ _ L0. Let LC := st_len _ _ _ _ C0.
  Lemma max_skip_2 a b : max_skip [Fin a; Fin b] = Fin (larger a b).
  Proof. unfold larger. cbn. destruct (qltb a b); reflexivity. Qed.
  Lemma swi_at : swing_span ox hx lx cx k <> 0 -> nth k (swi o h l c) NaN = from 1 k (Fin (r4 (clip (swing ox hx lx cx k)))).
  Proof.
    intro R. pose proof (proj2 O) as HO. pose proof (proj2 H) as HH. pose proof (proj2 L) as HL. pose proof (proj2 C) as HC.
    unfold swi. rewrite nth_sround. unfold smul, scale, sdiv, sdivc, sadd, ssub, sabs, row2, row3. cell. unfold from. destruct (Nat.ltb_spec k 1) as [B|B].
    - rewrite HO, HH, HL, HC by auto. reflexivity.
    - rewrite !HO, !HH, !HL, !HC by lia. cbn [nsub nneg nadd nabs nmul]. rewrite max_skip_2.
      change (F 3) with (Fin (zq 3)). rewrite (ndiv_fin _ (zq 3)) by (apply zq_neq0; lia).
      change (D 1 2) with (Fin (Q2Qc (1 # 2))). change (D 1 4) with (Fin (Q2Qc (1 # 4))).
      replace (Q2Qc (1 # 2)) with (1 / zq 2) by (apply Qc_is_canon; reflexivity). replace (Q2Qc (1 # 4)) with (1 / zq 4) by (apply Qc_is_canon; reflexivity).
      rewrite max_skip_3. cbn [nsub nneg nadd nabs nmul].
      match goal with |- context [ndiv (Fin ?a) (Fin ?b)] => assert (E : b = swing_span ox hx lx cx k) end.
      { unfold swing_span. change qabs with abs. change (cx (k - 1)%nat + - ox (k - 1)%nat) with (cx (k - 1)%nat - ox (k - 1)%nat). unfold Qcminus. field. apply zq_neq0; lia. }
      rewrite E. rewrite ndiv_fin by exact R. change (F 50) with (Fin (zq 50)). cbn [nmul].
      match goal with |- nround 4 (if nltb (if ngtb (Fin ?a) _ then _ else _) _ then _ else _) = _ => assert (E2 : a = swing ox hx lx cx k) end.
      { unfold swing. change qabs with abs. unfold Qcminus. f_equal. f_equal. f_equal. f_equal; field; apply zq_neq0; lia. }
      rewrite E2. unfold clip, ngtb, nltb. change (F 100) with (Fin (zq 100)). change (F (-100)) with (Fin (zq (-100))).
      destruct (qltb (zq 100) (swing ox hx lx cx k)) eqn:E3; [reflexivity|]. destruct (qltb (swing ox hx lx cx k) (zq (-100))); reflexivity.
  Qed.
End Swing.
