(** * IdentApi: identities between indicators, for every object a constructor returns. *)
From Coq Require Import ZArith QArith Qcanon Bool List String PeanoNat Lia Sorted Permutation.
From Verif Require Import Num NumFacts RoundFacts Pandas Sim Frame FrameSpec FrameProofs Ind Signal Api IndSpec SeriesFacts Lengths Causal IndFacts Shape ApiSpec ApiCheck ApiProofs ApiLemmas RangeSpec Cells RangeFacts RangeMore Publish RangeApi ValueSpec ValueFacts ValueMore Recur ValueApi CumulApi.
From Verif Require Import FormulaSpec Starts Formula Formula2 Formula3 FormulaApi IdentFacts.
Import ListNotations.
Open Scope list_scope. Open Scope string_scope.

Lemma view_same {o i i' raw b ob ob' f f'} (V : view o i raw b ob f) (V' : view o i' raw b ob' f') : required i = required i' -> f = f'.
Proof. intro R. pose proof (v_val _ _ _ _ _ _ V) as A. pose proof (v_val _ _ _ _ _ _ V') as B. rewrite R in A. congruence. Qed.

Lemma window_1 (s : series) k : (k < List.length s)%nat -> window 1 k s = [nth k s NaN].
Proof.
  intro L. unfold window. replace (S k - 1)%nat with k by lia. revert k L. induction s as [|x s IH]; intros [|k] L; cbn in *; try lia; auto. apply IH. lia.
Qed.
Lemma roll_sum_1 (s : series) k : noninf (nth k s NaN) -> nth k (roll_sum 1 s) NaN = nth k s NaN.
Proof.
  intros [A B]. unfold roll_sum, rolling. destruct (Nat.lt_ge_cases k (List.length s)) as [L|L].
  - rewrite nth_map_seq by exact L. cbv zeta. rewrite window_1 by exact L. destruct (nth k s NaN) as [| | |q] eqn:E; try congruence; cbn; auto.
    unfold agg_sum, qsum. cbn. apply (f_equal Fin). ring.
  - rewrite !nth_overflow; auto. rewrite map_length, seq_length. exact L.
Qed.
Lemma noninf_sub x y : noninf x -> noninf y -> noninf (nsub x y).
Proof. intros [A B] [C D]. destruct x; destruct y; try congruence; split; discriminate. Qed.
Lemma noninf_max v : noninf (agg_max v). Proof. destruct v; split; discriminate. Qed.
Lemma noninf_min v : noninf (agg_min v). Proof. destruct v; split; discriminate. Qed.

Section Identities.
  Variables (o : oracle) (raw : rawframe) (b : bool) (ob ob' : obj).
  Hypothesis W : wf_raw raw.
  Notation first c := (snd (construct o c (RFrame raw) (VBool b)) = Ok ob).
  Notation second c := (snd (construct o c (RFrame raw) (VBool b)) = Ok ob').
  Local Open Scope Qc_scope.

  Lemma middle_band_average p w k : first (cMA p (VStr "simple")) -> second (cBB p w) ->
    shown "middle_band" ob' k = shown "ma-simple" ob k.
  Proof.
    intros H H'. destruct (construct_view _ _ _ _ _ W H) as (f & V). destruct (construct_view _ _ _ _ _ W H') as (f' & V'). cbn in V, V'.
    assert (E : f = f') by (apply (view_same V V'); reflexivity). subst f'. unfold shown.
    erewrite (view_cell V) by reflexivity. erewrite (view_cell V') by reflexivity. reflexivity.
  Qed.
  Lemma forecast_average p k : first (cMA p (VStr "time_series")) -> second (cTSF p) ->
    shown "tsf" ob' k = shown "ma-time_series" ob k.
  Proof.
    intros H H'. destruct (construct_view _ _ _ _ _ W H) as (f & V). destruct (construct_view _ _ _ _ _ W H') as (f' & V'). cbn in V, V'.
    assert (E : f = f') by (apply (view_same V V'); reflexivity). subst f'. unfold shown.
    erewrite (view_cell V) by reflexivity. erewrite (view_cell V') by reflexivity. reflexivity.
  Qed.
  Lemma stochastic_williams p d m k : first (cWR p) -> second (cSO p (VInt 1) d m) ->
    noninf (given "close" ob k) -> shown "%K" ob' k = nadd (F 100) (shown "wr" ob k).
  Proof.
    intros H H' NI. destruct (construct_view _ _ _ _ _ W H) as (f & V). destruct (construct_view _ _ _ _ _ W H') as (f' & V'). cbn [asked] in V, V'.
    assert (E : f = f') by (apply (view_same V V'); reflexivity). subst f'. unfold shown.
    erewrite (view_cell V) by reflexivity. erewrite (view_cell V') by reflexivity.
    change (nat_arg (VInt 1)) with 1%nat.
    rewrite (view_given V) in NI by req.
    assert (LC : List.length (col "close" f) = List.length (rows f)) by (apply (view_length V); req).
    assert (LH : List.length (col "high" f) = List.length (rows f)) by (apply (view_length V); req).
    assert (LL : List.length (col "low" f) = List.length (rows f)) by (apply (view_length V); req).
    set (n := List.length (rows f)) in *.
    assert (LS : List.length (so_k (nat_arg p) 1 (col "high" f) (col "low" f) (col "close" f)) = n) by (unfold so_k; lens).
    assert (LW : List.length (wr (nat_arg p) (col "high" f) (col "low" f) (col "close" f)) = n) by (unfold wr; lens).
    destruct (Nat.lt_ge_cases k n) as [L|L].
    - unfold so_k, wr. cbv zeta.
      assert (LR : List.length (roll_max (nat_arg p) (nat_arg p) (col "high" f)) = n) by lens.
      assert (LM : List.length (roll_min (nat_arg p) (nat_arg p) (col "low" f)) = n) by lens.
      assert (NH : noninf (nth k (roll_max (nat_arg p) (nat_arg p) (col "high" f)) NaN)) by (apply noninf_agg, noninf_max).
      assert (NL : noninf (nth k (roll_min (nat_arg p) (nat_arg p) (col "low" f)) NaN)) by (apply noninf_agg, noninf_min).
      set (hh := roll_max _ _ _) in *. set (ll := roll_min _ _ _) in *.
      assert (L1 : List.length (ssub (col "close" f) ll) = n) by lens. assert (L2 : List.length (ssub hh ll) = n) by lens.
      assert (L3 : List.length (ssub hh (col "close" f)) = n) by lens.
      assert (C1 : nth k (roll_sum 1 (ssub (col "close" f) ll)) NaN = nsub (nth k (col "close" f) NaN) (nth k ll NaN)).
      { rewrite roll_sum_1; unfold ssub; rewrite (c_szip nsub _ _ k n) by lens; auto using noninf_sub. }
      assert (C2 : nth k (roll_sum 1 (ssub hh ll)) NaN = nsub (nth k hh NaN) (nth k ll NaN)).
      { rewrite roll_sum_1; unfold ssub; rewrite (c_szip nsub _ _ k n) by lens; auto using noninf_sub. }
      assert (L4 : List.length (roll_sum 1 (ssub (col "close" f) ll)) = n) by lens. assert (L5 : List.length (roll_sum 1 (ssub hh ll)) = n) by lens.
      set (r1 := roll_sum 1 (ssub (col "close" f) ll)) in *. set (r2 := roll_sum 1 (ssub hh ll)) in *. clearbody r1 r2.
      unser. cell. rewrite C1, C2. rewrite <- place_cell; auto.
    - rewrite (nth_overflow (so_k _ _ _ _ _)), (nth_overflow (wr _ _ _ _)) by lia. reflexivity.
  Qed.
  Lemma macd_averages k : forall ob12 ob26, snd (construct o (cMA (VInt 12) (VStr "exponential")) (RFrame raw) (VBool b)) = Ok ob12 ->
    snd (construct o (cMA (VInt 26) (VStr "exponential")) (RFrame raw) (VBool b)) = Ok ob26 -> first cMACD ->
    shown "macd" ob k = nround 4 (nsub (shown "ma-exponential" ob12 k) (shown "ma-exponential" ob26 k)).
  Proof.
    intros ob12 ob26 H1 H2 H. destruct (construct_view _ _ _ _ _ W H) as (f & V).
    destruct (construct_view _ _ _ _ _ W H1) as (f1 & V1). destruct (construct_view _ _ _ _ _ W H2) as (f2 & V2). cbn in V, V1, V2.
    assert (E : f = f1) by (apply (view_same V V1); reflexivity). subst f1.
    assert (E : f = f2) by (apply (view_same V V2); reflexivity). subst f2. unfold shown.
    erewrite (view_cell V) by reflexivity. erewrite (view_cell V1) by reflexivity. erewrite (view_cell V2) by reflexivity.
    change (nat_arg (VInt 12)) with 12%nat. change (nat_arg (VInt 26)) with 26%nat. unfold macd, macd_raw, ma.
    assert (LC : List.length (col "close" f) = List.length (rows f)) by (apply (view_length V); req).
    destruct (Nat.lt_ge_cases k (List.length (rows f))) as [L|L].
    - unser. cell. reflexivity.
    - rewrite !nth_overflow; [reflexivity|..]; match goal with |- (?x <= _)%nat => replace x with (List.length (rows f)) by (symmetry; lens) end; exact L.
  Qed.
  Lemma forecast_oscillator_forecast p k : first (cTSF p) -> second (cFOSC p) -> (1 <= k)%nat ->
    shown "fosc" ob' k = nround 4 (ndiv (nmul (F 100) (nsub (given "close" ob k) (shown "tsf" ob (k - 1)))) (given "close" ob k)).
  Proof.
    intros H H' K. destruct (construct_view _ _ _ _ _ W H) as (f & V). destruct (construct_view _ _ _ _ _ W H') as (f' & V'). cbn [asked] in V, V'.
    assert (E : f = f') by (apply (view_same V V'); reflexivity). subst f'. rewrite (view_given V) by req. unfold shown.
    erewrite (view_cell V) by reflexivity. erewrite (view_cell V') by reflexivity.
    assert (LC : List.length (col "close" f) = List.length (rows f)) by (apply (view_length V); req).
    assert (LF : List.length (col "close" (fill_missing f)) = List.length (rows f)).
    { pose proof (v_good _ _ _ _ _ _ V) as (G1 & G2 & G3). rewrite (fill_col f _ G2 G3), map_length, seq_length. exact LC. }
    assert (LT : List.length (tsf (nat_arg p) (col "close" (fill_missing f))) = List.length (rows f)).
    { unfold tsf, tsf_raw. lens. }
    set (t := tsf _ _) in *. clearbody t.
    destruct (Nat.lt_ge_cases k (List.length (rows f))) as [L|L].
    - unfold fosc. unser. cell. destruct (Nat.ltb_spec k 1); [lia|]. reflexivity.
    - rewrite (nth_overflow (fosc _ _)), (nth_overflow (col "close" f)) by (try (replace (List.length (fosc (col "close" f) t)) with (List.length (rows f)) by (symmetry; unfold fosc; lens)); lia). reflexivity.
  Qed.
  Lemma bands_deviation p w k c sd mid up low : first (cSD p) -> second (cBB p w) -> as_number w = Fin c ->
    shown "sd" ob k = Fin sd -> shown "middle_band" ob' k = Fin mid -> shown "upper_band" ob' k = Fin up -> shown "lower_band" ob' k = Fin low ->
    qabs (up - mid - c * sd) <= (1 + qabs c) * Q2Qc (5 # 100000) /\ qabs (mid - low - c * sd) <= (1 + qabs c) * Q2Qc (5 # 100000).
  Proof.
    intros H H' EC. destruct (construct_view _ _ _ _ _ W H) as (f & V). destruct (construct_view _ _ _ _ _ W H') as (f' & V'). cbn [asked] in V, V'.
    assert (E : f = f') by (apply (view_same V V'); reflexivity). subst f'. unfold shown.
    erewrite (view_cell V) by reflexivity. repeat (erewrite (view_cell V') by reflexivity). rewrite EC.
    assert (LC : List.length (col "close" f) = List.length (rows f)) by (apply (view_length V); req).
    destruct (Nat.lt_ge_cases k (List.length (rows f))) as [L|L].
    - unfold bb_upper, bb_lower. intros S M.
      assert (LM : List.length (bb_middle (nat_arg p) (col "close" f)) = List.length (rows f)) by (unfold bb_middle; lens).
      set (m := bb_middle _ _) in *. clearbody m. unfold Ind.sd in S. unser. cell. cell_in S. rewrite M.
      apply nround_finite in S as (s & S & ->). rewrite S. cbn [nmul nadd nsub nneg nround]. intros U D. injection U as <-. injection D as <-.
      change (qround 4) with r4.
      pose proof (r4_err s) as E1. pose proof (r4_err (mid + s * c)) as E2. pose proof (r4_err (mid + - (s * c))) as E3.
      assert (E4 : qabs (c * (r4 s - s)) <= qabs c * Q2Qc (5 # 100000)).
      { pose proof (qabs_nonneg c). pose proof (qabs_ge c). pose proof (qabs_ge_neg c). pose proof (qabs_ge (r4 s - s)). pose proof (qabs_ge_neg (r4 s - s)).
        apply qabs_le; clear E2 E3; set (z := qabs (r4 s - s)) in *; set (y := qabs c) in *; set (d := r4 s - s) in *; clearbody z y d; qnra. }
      pose proof (qabs_ge (c * (r4 s - s))). pose proof (qabs_ge_neg (c * (r4 s - s))).
      pose proof (qabs_ge (r4 (mid + s * c) - (mid + s * c))). pose proof (qabs_ge_neg (r4 (mid + s * c) - (mid + s * c))).
      pose proof (qabs_ge (r4 (mid + - (s * c)) - (mid + - (s * c)))). pose proof (qabs_ge_neg (r4 (mid + - (s * c)) - (mid + - (s * c)))).
      replace (r4 (mid + s * c) - mid - c * r4 s) with ((r4 (mid + s * c) - (mid + s * c)) - c * (r4 s - s)) by ring.
      replace (mid - r4 (mid + - (s * c)) - c * r4 s) with (- (r4 (mid + - (s * c)) - (mid + - (s * c))) - c * (r4 s - s)) by ring.
      replace ((1 + qabs c) * Q2Qc (5 # 100000)) with (Q2Qc (5 # 100000) + qabs c * Q2Qc (5 # 100000)) by ring.
      set (A := r4 (mid + s * c) - (mid + s * c)) in *. set (B := r4 (mid + - (s * c)) - (mid + - (s * c))) in *. set (C := c * (r4 s - s)) in *.
      set (G := qabs c * Q2Qc (5 # 100000)) in *. clearbody A B C G.
      split; apply qabs_le; qlra.
    - intro S. rewrite nth_overflow in S; [discriminate|]. replace (List.length (Ind.sd _ _ _)) with (List.length (rows f)) by (symmetry; unfold Ind.sd; lens). exact L.
  Qed.
  Lemma envelope_average p w k avg up low : first (cMA p (VStr "simple")) -> second (cENV p w) ->
    shown "ma-simple" ob k = Fin avg -> shown "upper_band" ob' k = Fin up -> shown "lower_band" ob' k = Fin low ->
    qabs (up + low - zq 2 * avg) <= Q2Qc (2 # 10000).
  Proof.
    intros H H'. destruct (construct_view _ _ _ _ _ W H) as (f & V). destruct (construct_view _ _ _ _ _ W H') as (f' & V'). cbn in V. cbn [asked] in V'.
    assert (E : f = f') by (apply (view_same V V'); reflexivity). subst f'. unfold shown.
    erewrite (view_cell V) by reflexivity. repeat (erewrite (view_cell V') by reflexivity).
    assert (LC : List.length (col "close" f) = List.length (rows f)) by (apply (view_length V); req).
    destruct (Nat.lt_ge_cases k (List.length (rows f))) as [L|L].
    - unfold ma, env_upper, env_lower. intro S. unser. cell. cell_in S.
      apply nround_finite in S as (s & S & ->). rewrite S. destruct (as_number w) as [| | |c]; try (cbn; discriminate).
      1-2: unfold F, nsub; cbn [nadd nneg nmul]; unfold infmul; repeat match goal with |- context [if ?x then _ else _] => destruct x end; cbn; discriminate.
      unfold F, nsub. cbn [nadd nneg nmul nround]. intros U D. injection U as <-. injection D as <-.
      change (qround 4) with r4. fold (zq 1).
      pose proof (r4_err s) as E1. pose proof (r4_err ((zq 1 + c) * s)) as E2. pose proof (r4_err ((zq 1 + - c) * s)) as E3.
      pose proof (qabs_ge (r4 s - s)). pose proof (qabs_ge_neg (r4 s - s)).
      pose proof (qabs_ge (r4 ((zq 1 + c) * s) - (zq 1 + c) * s)). pose proof (qabs_ge_neg (r4 ((zq 1 + c) * s) - (zq 1 + c) * s)).
      pose proof (qabs_ge (r4 ((zq 1 + - c) * s) - (zq 1 + - c) * s)). pose proof (qabs_ge_neg (r4 ((zq 1 + - c) * s) - (zq 1 + - c) * s)).
      replace (r4 ((zq 1 + c) * s) + r4 ((zq 1 + - c) * s) - zq 2 * r4 s) with
        ((r4 ((zq 1 + c) * s) - (zq 1 + c) * s) + (r4 ((zq 1 + - c) * s) - (zq 1 + - c) * s) - zq 2 * (r4 s - s)).
      2:{ replace (zq 2) with (zq 1 + zq 1) by (apply Qc_is_canon; reflexivity). ring. }
      set (A := r4 ((zq 1 + c) * s) - _) in *. set (B := r4 ((zq 1 + - c) * s) - _) in *. set (C := r4 s - s) in *. clearbody A B C.
      change (zq 2) with (Q2Qc (2 # 1)). apply qabs_le; qlra.
    - intro S. rewrite nth_overflow in S; [discriminate|]. replace (List.length (ma _ _ _ _)) with (List.length (rows f)) by (symmetry; unfold ma; lens). exact L.
  Qed.
  Lemma rates_of_change p k : first (cVRC p) -> forall raw' b' ob'', wf_raw raw' -> snd (construct o (cPRC p) (RFrame raw') (VBool b')) = Ok ob'' ->
    days_given ob = days_given ob'' -> (forall j, given "volume" ob j = given "close" ob'' j) -> shown "vrc" ob k = shown "prc" ob'' k.
  Proof.
    intros H raw' b' ob'' W' H' DD G. destruct (construct_view _ _ _ _ _ W H) as (f & V). destruct (construct_view _ _ _ _ _ W' H') as (f' & V'). cbn [asked] in V, V'.
    rewrite (view_days V), (view_days V') in DD.
    assert (E : col "volume" f = col "close" f').
    { apply nth_ext with (d := NaN) (d' := NaN); [rewrite (view_length V), (view_length V') by req; exact DD|].
      intros j _. rewrite <- (view_given V), <- (view_given V') by req. apply G. }
    unfold shown. erewrite (view_cell V) by reflexivity. erewrite (view_cell V') by reflexivity. rewrite E.
    assert (LC : List.length (col "close" f') = List.length (rows f')) by (apply (view_length V'); req).
    destruct (Nat.lt_ge_cases k (List.length (rows f'))) as [L|L].
    - unfold vrc, prc. unser. cell. rewrite hundred_div. reflexivity.
    - rewrite !nth_overflow; [reflexivity|..]; match goal with |- (?x <= _)%nat => replace x with (List.length (rows f')) by (symmetry; unfold vrc, prc; lens) end; exact L.
  Qed.
  Lemma plain_ewm f k c p : (0 < p)%nat -> complete_as (S k) (firstn (S k) (col "close" f)) c -> nth k (ewm p p (col "close" f)) NaN = from (p - 1) k (Fin (ema_from 0 p c k)).
  Proof.
    intros P C. rewrite row_cut, <- ewm_firstn.
    eapply st_end; [apply st_ewm; [apply st_complete; exact C|exact P]|lia|lia|reflexivity].
  Qed.
  Lemma input_fresh i f n : view o i raw b ob f -> ~ In n (required i) -> ~ In n (cols f).
  Proof. intros V N I. apply N. apply (validate_cols _ _ _ _ (v_val _ _ _ _ _ _ V)). exact I. Qed.
  Lemma mass_average k c : first cMI -> known (given "close" ob) k c -> given "9_ema" ob k = from 8 k (Fin (ema_from 0 9 c k)).
  Proof.
    intros H KC. look f V VV. pose proof (v_good _ _ _ _ _ _ V) as (G1 & G2 & G3).
    unfold given, cell_at. rewrite (v_input _ _ _ _ _ _ V). cbn [input_after]. rewrite col_add_new; auto.
    - apply plain_ewm; [lia|]. apply (view_known V); [req|assumption].
    - apply (input_fresh _ _ _ V). cbn. intuition discriminate.
    - rewrite len_ewm. apply (view_length V). req.
  Qed.
  Lemma median_average p k c : first (cMP p) -> known (given "close" ob) k c -> given "close_ema" ob k = from (nat_arg p - 1) k (Fin (ema_from 0 (nat_arg p) c k)).
  Proof.
    intros H KC. look f V VV. pose proof (v_good _ _ _ _ _ _ V) as (G1 & G2 & G3).
    unfold given, cell_at. rewrite (v_input _ _ _ _ _ _ V). cbn [input_after]. rewrite col_add_new; auto.
    - apply plain_ewm; [lia|]. apply (view_known V); [req|assumption].
    - apply (input_fresh _ _ _ V). cbn. intuition discriminate.
    - rewrite len_ewm. apply (view_length V). req.
  Qed.

  Definition one_row : list (ctor * string) :=
    [(cMA (VInt 1) (VStr "simple"), "ma-simple"); (cMA (VInt 1) (VStr "exponential"), "ma-exponential"); (cMA (VInt 1) (VStr "triangular"), "ma-triangular");
     (cDEMA (VInt 1), "dema"); (cTEMA (VInt 1), "tema"); (cWS (VInt 1), "ws")].
  Lemma one_row_shown c name k x : In (c, name) one_row -> first c -> known (given "close" ob) k x -> shown name ob k = Fin (r4 (x k)).
  Proof.
    intros I H K. cbn [In one_row] in I. repeat destruct I as [I|I]; try contradiction; injection I as <- <-.
    - rewrite (simple_moving_average_shown o raw b ob W _ k x H K). cbn [from]. rewrite mean_last_1. reflexivity.
    - rewrite (exponential_moving_average_shown o raw b ob W _ k x H K). change (nat_arg (VInt 1)) with 1%nat. rewrite ema_from_1. reflexivity.
    - rewrite (triangular_moving_average_shown o raw b ob W _ k x H K). change (nat_arg (VInt 1)) with 1%nat. rewrite !mean_last_1. reflexivity.
    - pose proof (double_exponential_shown o raw b ob W _ k x H K) as E. cbv zeta in E. rewrite E. clear E. change (nat_arg (VInt 1)) with 1%nat. change (1 - 1)%nat with 0%nat. rewrite !ema_from_1.
      cbn [from Nat.mul Nat.add]. unfold from. cbn [Nat.ltb Nat.leb]. apply (f_equal (fun z => Fin (r4 z))). change (zq 2) with (1 + 1)%Qc. ring.
    - pose proof (triple_exponential_shown o raw b ob W _ k x H K) as E. cbv zeta in E. rewrite E. clear E. change (nat_arg (VInt 1)) with 1%nat. change (1 - 1)%nat with 0%nat. rewrite !ema_from_1.
      unfold from. cbn [Nat.mul Nat.add Nat.ltb Nat.leb]. apply (f_equal (fun z => Fin (r4 z))). ring.
    - rewrite (wilders_smoothing_shown o raw b ob W _ k x H K). change (nat_arg (VInt 1)) with 1%nat. change (1 - 1)%nat with 0%nat. rewrite wilders_1. reflexivity.
  Qed.
End Identities.
