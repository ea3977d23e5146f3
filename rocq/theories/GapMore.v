(** * GapMore: indicators that go on through a missing price. *)
From Coq Require Import ZArith QArith Qcanon Bool List String PeanoNat Lia.
From Verif Require Import Num NumFacts RoundFacts Pandas Sim Frame FrameSpec FrameProofs Ind Signal Api IndSpec SeriesFacts Lengths Causal IndFacts Shape ApiSpec ApiCheck ApiProofs ApiLemmas RangeSpec Cells RangeFacts RangeMore Publish RangeApi ValueSpec ValueFacts ValueMore Recur ValueApi CumulApi.
From Verif Require Import FormulaSpec Starts Formula Formula2 Formula3 Formula4 Line Formula5 Formula6 FormulaApi.
From Verif Require Import GapSpec GapFacts.
Import ListNotations.
Open Scope string_scope. Open Scope list_scope. Open Scope Qc_scope.

(** ** exponential averages *)
Fixpoint ewm_state (a : Qc) (st : option (Qc * Qc)) (n : nat) (s : series) : option (Qc * Qc) * nat :=
  match s with
  | [] => (st, n)
  | Fin q :: r => ewm_state a (match st with None => Some (q, 1) | Some (w, ow) => Some ((ow * (1 - a) * w + a * q) / (ow * (1 - a) + a), 1) end) (S n) r
  | _ :: r => ewm_state a (match st with None => None | Some (w, ow) => Some (w, ow * (1 - a)) end) n r
  end.
Definition ewm_show (m : nat) (st : option (Qc * Qc) * nat) : num := match fst st with None => NaN | Some (w, _) => ewm_out m (snd st) w end.
Lemma nth_ewm_from a m s : forall st n k, (k < List.length s)%nat -> nth k (ewm_from a m st n s) NaN = ewm_show m (ewm_state a st n (firstn (S k) s)).
Proof.
  induction s as [|x s IH]; intros st n k K; [cbn in K; lia|]. cbn [List.length] in K.
  destruct k as [|k].
  - cbn [firstn]. destruct x, st as [[w ow]|]; reflexivity.
  - change (firstn (S (S k)) (x :: s)) with (x :: firstn (S k) s).
    destruct x, st as [[w ow]|]; cbn [ewm_from nth ewm_state]; apply IH; lia.
Qed.
Lemma ewm_state_app a s t : forall st n, ewm_state a st n (s ++ t) = let r := ewm_state a st n s in ewm_state a (fst r) (snd r) t.
Proof. induction s as [|x s IH]; intros st n; [reflexivity|]. destruct x; cbn [app ewm_state]; apply IH. Qed.
Lemma firstn_S {A} (s : list A) k d : (k < List.length s)%nat -> firstn (S k) s = firstn k s ++ [nth k s d].
Proof. revert k; induction s as [|x s IH]; intros k K; [cbn in K; lia|]. destruct k; [reflexivity|]. cbn [firstn app nth]. f_equal. apply IH. cbn in K. lia. Qed.
Lemma ewm_wait a m s k : (S k < List.length s)%nat -> nth (S k) s NaN = NaN -> nth (S k) (ewm_alpha a m s) NaN = nth k (ewm_alpha a m s) NaN.
Proof.
  intros K G. unfold ewm_alpha. rewrite !nth_ewm_from by lia. rewrite (firstn_S s (S k) NaN) by lia. rewrite G, ewm_state_app. cbv zeta. unfold ewm_show.
  destruct (ewm_state a None 0 (firstn (S k) s)) as [[[w ow]|] n]; reflexivity.
Qed.
Lemma ewm_state_full a x s j : (j < List.length s)%nat -> (forall i, (i <= j)%nat -> nth i s NaN = Fin (x i)) ->
  ewm_state a None 0 (firstn (S j) s) = (Some (ema a x j, 1), S j).
Proof.
  induction j as [|j IH]; intros L X.
  - rewrite (firstn_S s 0 NaN) by lia. rewrite X by lia. reflexivity.
  - rewrite (firstn_S s (S j) NaN) by lia. rewrite X by lia. rewrite ewm_state_app, IH by (auto; lia). cbn [fst snd ewm_state ema].
    do 3 f_equal. field. intro Z0. change (1 - a + a = 0) in Z0. assert (E : 1 = 0) by (match type of Z0 with ?e = _ => transitivity e; [ring|exact Z0] end). discriminate E.
Qed.
Lemma ewm_state_gap a s w n j g : (j + g < List.length s)%nat -> (forall i, (j < i)%nat -> (i <= j + g)%nat -> nth i s NaN = NaN) ->
  ewm_state a None 0 (firstn (S j) s) = (Some (w, 1), n) -> ewm_state a None 0 (firstn (S (j + g)) s) = (Some (w, (1 - a) ^ g), n).
Proof.
  induction g as [|g IH]; intros L X E.
  - rewrite Nat.add_0_r. rewrite E. reflexivity.
  - rewrite Nat.add_succ_r in *. rewrite (firstn_S s (S (j + g)) NaN) by lia. rewrite X by lia. rewrite ewm_state_app, IH by (auto; try lia; intros; apply X; lia).
    cbn [fst snd ewm_state Qcpower]. do 3 f_equal. ring.
Qed.
Lemma ewm_resume a m s c j g y : (S (j + g) < List.length s)%nat -> (forall i, (i <= j)%nat -> nth i s NaN = Fin (c i)) ->
  (forall i, (j < i)%nat -> (i <= j + g)%nat -> nth i s NaN = NaN) -> nth (S (j + g)) s NaN = Fin y -> (m <= S (S j))%nat ->
  nth (S (j + g)) (ewm_alpha a m s) NaN = Fin (((1 - a) ^ S g * ema a c j + a * y) / ((1 - a) ^ S g + a)).
Proof.
  intros L X G Y M. unfold ewm_alpha. rewrite nth_ewm_from by lia. rewrite (firstn_S s (S (j + g)) NaN) by lia. rewrite Y, ewm_state_app.
  rewrite (ewm_state_gap a s (ema a c j) (S j) j g); [|lia|auto|apply ewm_state_full; [lia|auto]].
  cbn [fst snd ewm_state]. unfold ewm_show. cbn [fst snd]. unfold ewm_out. destruct (Nat.leb_spec m (S (S j))); [|lia].
  cbn [Qcpower]. f_equal. rewrite (Qcmult_comm (1 - a)). reflexivity.
Qed.

(** ** counted as zero *)
Lemma fill0_again s : fill0 (fill0 s) = fill0 s.
Proof. unfold fill0, smap. rewrite map_map. apply map_ext. intros []; reflexivity. Qed.
Lemma len_fill0 s : List.length (fill0 s) = List.length s.
Proof. apply map_length. Qed.
Lemma lri_fill0 p s : lri p (fill0 s) = lri p s.
Proof. unfold lri, rolling_ols. rewrite fill0_again, len_fill0. reflexivity. Qed.
Lemma sparse_fill0 s k f : (k < List.length s)%nat -> (forall j, (j <= k)%nat -> nth j s NaN = cell_of (f j)) -> complete_as (S k) (firstn (S k) (fill0 s)) (or_zero f).
Proof.
  intros L X. split; [rewrite firstn_length; unfold fill0, smap; rewrite map_length; lia|].
  intros j J. rewrite nth_firstn by lia. unfold fill0. rewrite nth_smap by lia. rewrite X by lia. unfold or_zero. destruct (f j); reflexivity.
Qed.
Lemma cci_tp_fill0 h l c k fh fl fc : List.length h = List.length c -> List.length l = List.length c -> (k < List.length c)%nat ->
  (forall j, (j <= k)%nat -> nth j h NaN = cell_of (fh j)) -> (forall j, (j <= k)%nat -> nth j l NaN = cell_of (fl j)) -> (forall j, (j <= k)%nat -> nth j c NaN = cell_of (fc j)) ->
  cci_tp (firstn (S k) h) (firstn (S k) l) (firstn (S k) c) = cci_tp (firstn (S k) (fill0 h)) (firstn (S k) (fill0 l)) (firstn (S k) (fill0 c)).
Proof.
  intros LH LL LC H L C. apply (list_nth_eq _ _ NaN).
  - unfold cci_tp, sdivc, row3, smap, fill0. rewrite !map_length, !len_szip3, !firstn_length. unfold smap. rewrite !map_length. reflexivity.
  - intros j J. unfold cci_tp, sdivc, row3, smap in J |- *. rewrite map_length, len_szip3, !firstn_length in J.
    rewrite !(nth_map _ NaN) by (rewrite len_szip3, !firstn_length; unfold fill0, smap; rewrite ?map_length; lia). f_equal.
    rewrite !(nth_szip3 _ _ _ _ j NaN NaN NaN) by (rewrite firstn_length; unfold fill0, smap; rewrite ?map_length; lia).
    rewrite !nth_firstn by lia. unfold fill0. rewrite !nth_smap by lia. rewrite H, L, C by lia.
    unfold sum_skip. destruct (fh j), (fl j), (fc j); cbn [cell_of isnan present filter negb]; unfold nsum; cbn [fold_left nadd]; f_equal; ring.
Qed.
Lemma cci_from_tp p h l c h' l' c' : cci_tp h l c = cci_tp h' l' c' -> cci p h l c = cci p h' l' c'.
Proof. unfold cci. intros ->. reflexivity. Qed.

(** ** counted as no change *)
Section Moves.
  Variables (n k : nat) (c : series) (f : nat -> option Qc).
  Hypothesis LC : List.length c = n.
  Hypothesis X : forall j, (j < n)%nat -> nth j c NaN = cell_of (f j).
  Hypothesis K : (k < n)%nat.
  Lemma moves_up : starts n 1 (rsi_up c) (fun j => r4 (gain (move f j))).
  Proof.
    split; [lens|]. intros j J. unfold rsi_up. cell. unfold from. destruct (Nat.ltb_spec j 1); auto.
    rewrite !X by lia. unfold gain, move. destruct (f j) as [a|], (f (j - 1)%nat) as [b|]; cbn; try reflexivity.
    destruct (qltb_spec b a) as [A|A], (qltb_spec 0 (a - b)) as [B|B]; auto; exfalso;
      try (apply Qcnot_lt_le in A); try (apply Qcnot_lt_le in B); qlra.
  Qed.
  Lemma moves_down : starts n 1 (rsi_dn c) (fun j => r4 (loss (move f j))).
  Proof.
    split; [lens|]. intros j J. unfold rsi_dn. cell. unfold from. destruct (Nat.ltb_spec j 1); auto.
    rewrite !X by lia. unfold loss, move. destruct (f j) as [a|], (f (j - 1)%nat) as [b|]; cbn; try reflexivity.
    destruct (qltb_spec a b) as [A|A], (qltb_spec (a - b) 0) as [B|B]; auto;
      try (apply Qcnot_lt_le in A); try (apply Qcnot_lt_le in B); try (exfalso; qlra).
    cbn [nround]. unfold r4. f_equal. f_equal. ring.
  Qed.
  Lemma rsi_moves p : (0 < p)%nat ->
    let avg f := run_from p (fun prev y => r4 (wilders p prev y)) (mean_last f p p) f k in
    let u := avg (fun j => r4 (gain (move f j))) in let d := avg (fun j => r4 (loss (move f j))) in
    nth k (rsi p c) NaN = from p k (rn (ratio (zq 100 * u) (u + d))).
  Proof.
    intros P avg u d. unfold rsi. rewrite nth_sround.
    assert (Z : complete_as n (repeat (Fin 0) n) (fun _ => 0)) by (split; [apply repeat_length|intros j J; apply nth_repeat_any; exact J]).
    pose proof (rsi_smooth_st n k (repeat (Fin 0) n) (fun _ => 0) Z K p _ _ P moves_up) as U. pose proof (rsi_smooth_st n k (repeat (Fin 0) n) (fun _ => 0) Z K p _ _ P moves_down) as D.
    pose proof (st_len _ _ _ _ U). pose proof (st_len _ _ _ _ D).
    set (us := rsi_smooth p (rsi_up c)) in *. set (ds := rsi_smooth p (rsi_dn c)) in *.
    unfold sdiv. cell. rewrite (st_cell _ _ _ _ k U), (st_cell _ _ _ _ k D) by auto. fold (avg (fun j => r4 (gain (move f j)))). fold (avg (fun j => r4 (loss (move f j)))). fold u d.
    assert (NN : forall f, (forall j, 0 <= f j) -> 0 <= avg f).
    { intros g F0. unfold avg, run_from. apply run_nonneg.
      - unfold mean_last. apply qcdiv_nonneg; [apply total_nonneg; auto|apply qnat_pos; auto].
      - intros y j _ Y. apply r4_nonneg, wilders_nonneg; auto. }
    unfold from. destruct (Nat.ltb_spec k p); [reflexivity|]. unfold rn. f_equal. apply rsi_ratio; apply NN; intro j; apply r4_nonneg; [apply gain_nonneg|apply loss_nonneg].
  Qed.
End Moves.

(** ** on balance volume *)
Lemma cumsum_wait s : forall a k v, (S k < List.length s)%nat -> nth (S k) s NaN = Fin 0 -> nth k (cumsum_from a s) NaN = Fin v ->
  nth (S k) (cumsum_from a s) NaN = Fin v.
Proof.
  induction s as [|x s IH]; intros a k v L Z E; [cbn in L; lia|]. cbn [List.length] in L. cbn [nth] in Z.
  destruct k as [|k].
  - destruct s as [|y s]; [cbn in L; lia|]. cbn in Z. subst y. destruct x; cbn [cumsum_from nth] in E |- *; try discriminate; rewrite E; cbn [nadd]; f_equal; ring.
  - destruct x; cbn [cumsum_from] in E |- *; cbn [nth] in E |- *; (eapply IH; [lia|exact Z|exact E]).
Qed.
Lemma obv_wait c v k w : List.length c = List.length v -> (S k < List.length c)%nat -> nth k c NaN = NaN \/ nth (S k) c NaN = NaN ->
  nth k (obv c v) NaN = Fin w -> nth (S k) (obv c v) NaN = Fin w.
Proof.
  intros LL L G E. unfold obv, cumsum in *. refine (cumsum_wait _ _ _ _ _ _ E).
  - unfold assign. rewrite !len_szip3, !len_szip, len_shift, len_smap, repeat_length. lia.
  - unfold assign. rewrite !(nth_szip3 _ _ _ _ (S k) false NaN NaN) by (rewrite ?len_szip3, ?len_szip, ?len_shift, ?len_smap, ?repeat_length; lia).
    rewrite !(nth_szip _ _ _ (S k) NaN NaN) by (rewrite ?len_shift; lia). rewrite nth_shift1 by lia. rewrite nth_repeat_any by lia.
    destruct G as [-> | ->]; [destruct (nth (S k) c NaN)|destruct (nth k c NaN)]; reflexivity.
Qed.

Section Waiting.
  Variables (o : oracle) (raw : rawframe) (b : bool) (ob : obj).
  Hypothesis W : wf_raw raw.
  Notation constructed c := (snd (construct o c (RFrame raw) (VBool b)) = Ok ob).

  Lemma view_sparse {i f} (V : view o i raw b ob f) c k x : In c (required i) -> sparse (given c ob) k x ->
    forall j, (j <= k)%nat -> nth j (col c f) NaN = cell_of (x j).
  Proof. intros I S0 j J. rewrite <- (view_given V c j I). apply S0, J. Qed.

  Lemma ema_waits p k : constructed (cMA p (VStr "exponential")) -> (S k < days_given ob)%nat -> given "close" ob (S k) = NaN ->
    shown "ma-exponential" ob (S k) = shown "ma-exponential" ob k.
  Proof.
    intros H L G. look f V VV. cbn in V, VV. rewrite (view_days V) in L. rewrite (view_given V) in G by req.
    unfold shown. erewrite !(view_cell V) by reflexivity. cbv beta iota zeta. unfold ma. rewrite !nth_sround. f_equal.
    apply ewm_wait; [rewrite (view_length V) by req; exact L|exact G].
  Qed.
  Lemma macd_waits k : constructed cMACD -> (S k < days_given ob)%nat -> given "close" ob (S k) = NaN ->
    shown "macd" ob (S k) = shown "macd" ob k.
  Proof.
    intros H L G. look f V VV. rewrite (view_days V) in L. rewrite (view_given V) in G by req.
    unfold shown. erewrite !(view_cell V "macd") by (cbn; reflexivity).
    pose proof (view_length V "close" ltac:(req)) as LC. unfold macd, macd_raw, ssub. rewrite !nth_sround. f_equal.
    rewrite !(nth_szip _ _ _ _ NaN NaN) by (unfold sround, ewm, ewm_alpha; rewrite len_smap, len_ewm_from; lia).
    rewrite !nth_sround. unfold ewm. rewrite !ewm_wait by (auto; lia). reflexivity.
  Qed.
  Lemma ema_resumes p j g c y : constructed (cMA p (VStr "exponential")) ->
    known (given "close" ob) j c -> (forall i, (j < i)%nat -> (i <= j + g)%nat -> given "close" ob i = NaN) -> given "close" ob (S (j + g)) = Fin y ->
    (nat_arg p <= S (S j))%nat ->
    let a := span (nat_arg p) in
    shown "ma-exponential" ob (S (j + g)) = Fin (r4 (((1 - a) ^ S g * ema a c j + a * y) / ((1 - a) ^ S g + a))).
  Proof.
    intros H KC G Y P a. look f V VV. cbn in V, VV. rewrite (view_given V) in Y by req.
    unfold shown. erewrite !(view_cell V) by reflexivity. cbv beta iota zeta. unfold ma. rewrite !nth_sround. unfold ewm. change (span_alpha (nat_arg p)) with a.
    rewrite (ewm_resume a (nat_arg p) _ c j g y); auto.
    - destruct (Nat.lt_ge_cases (S (j + g)) (List.length (col "close" f))) as [L|L]; auto. rewrite nth_overflow in Y by exact L. discriminate.
    - intros i I. rewrite <- (view_given V "close" i) by req. apply KC, I.
    - intros i I J. rewrite <- (view_given V "close" i) by req. apply G; auto.
  Qed.
  Lemma regression_counts_zero p k c : constructed (cLRI p) -> (k < days_given ob)%nat -> sparse (given "close" ob) k c ->
    let n := nat_arg p in shown "lri" ob k = from (n - 1) k (Fin (r4 (end_last (or_zero c) n k))).
  Proof.
    intros H L S0. look f V VV. cbv zeta. rewrite (view_days V) in L. unfold shown. shown V. rewrite <- lri_fill0, row_cut, <- lri_firstn.
    eapply lri_at with (n := S k); try lia. apply sparse_fill0; [rewrite (view_length V) by req; exact L|]. apply (view_sparse V); [req|exact S0].
  Qed.
  Lemma channel_counts_zero p k h l c : constructed (cCCI p) -> (k < days_given ob)%nat ->
    sparse (given "high" ob) k h -> sparse (given "low" ob) k l -> sparse (given "close" ob) k c ->
    let n := nat_arg p in let tp := typical (or_zero h) (or_zero l) (or_zero c) in let mean := mean_last tp n k in
    let spread := mean_last (fun j => abs (mean - tp j)) n k in
    shown "cci" ob k = from (n - 1) k (rn (ratio (tp k - mean) (Q2Qc (15 # 1000) * spread))).
  Proof.
    intros H L SH SL SC. look f V VV. cbv zeta. rewrite (view_days V) in L. unfold shown. shown V.
    pose proof (view_length V "close" ltac:(req)) as LC. pose proof (view_length V "high" ltac:(req)) as LH. pose proof (view_length V "low" ltac:(req)) as LL.
    pose proof (view_sparse V "high" k h ltac:(req) SH) as XH. pose proof (view_sparse V "low" k l ltac:(req) SL) as XL. pose proof (view_sparse V "close" k c ltac:(req) SC) as XC.
    rewrite row_cut, <- cci_firstn.
    rewrite (cci_from_tp _ _ _ _ _ _ _ (cci_tp_fill0 (col "high" f) (col "low" f) (col "close" f) k h l c ltac:(congruence) ltac:(congruence) ltac:(lia) XH XL XC)).
    eapply cci_at with (n := S k); try lia; apply sparse_fill0; auto; lia.
  Qed.
  Lemma strength_counts_nothing p k c : constructed (cRSI p) -> (k < days_given ob)%nat -> sparse (given "close" ob) k c ->
    let n := nat_arg p in
    let average f := run_from n (fun prev y => r4 (wilders n prev y)) (mean_last f n n) f k in
    let up := average (fun j => r4 (gain (move c j))) in let down := average (fun j => r4 (loss (move c j))) in
    shown "rsi" ob k = from n k (rn (ratio (zq 100 * up) (up + down))).
  Proof.
    intros H L S0. look f V VV. cbv zeta. rewrite (view_days V) in L. unfold shown. shown V. rewrite row_cut, <- rsi_firstn.
    eapply rsi_moves with (n := S k); try lia.
    - rewrite firstn_length, (view_length V) by req. lia.
    - intros j J. rewrite nth_firstn by exact J. apply (view_sparse V "close" k); [req|exact S0|lia].
  Qed.
  Lemma typical_of_rest p k h l c : constructed (cTP p) -> (k < days_given ob)%nat ->
    given "high" ob k = cell_of h -> given "low" ob k = cell_of l -> given "close" ob k = cell_of c ->
    let there := flat_map (fun x => match x with Some q => [q] | None => [] end) [h; l; c] in
    shown "tp" ob k = rn (ratio (fold_right Qcplus 0 there) (nq (List.length there))).
  Proof.
    intros H L GH GL GC. look f V VV. cbv zeta. rewrite (view_days V) in L. unfold shown. shown V.
    rewrite (view_given V) in GH, GL, GC by req.
    unfold tp, row3. rewrite nth_sround. rewrite (nth_szip3 _ _ _ _ k NaN NaN NaN) by (rewrite (view_length V) by req; exact L).
    rewrite GH, GL, GC. unfold mean_skip. destruct h, l, c; cbn [cell_of isnan present filter negb flat_map app]; unfold nsum, rn, ratio; cbn [fold_left nadd fold_right]; do 2 f_equal; f_equal; ring.
  Qed.
  Lemma obv_waits k w : constructed cOBV -> (S k < days_given ob)%nat -> given "close" ob k = NaN \/ given "close" ob (S k) = NaN ->
    shown "obv" ob k = Fin w -> shown "obv" ob (S k) = Fin w.
  Proof.
    intros H L G E. look f V VV. rewrite (view_days V) in L. rewrite !(view_given V) in G by req. unfold shown in *.
    erewrite (view_cell V "obv") in E by (cbn; reflexivity). erewrite (view_cell V "obv") by (cbn; reflexivity).
    refine (obv_wait _ _ _ _ _ _ G E); rewrite !(view_length V) by req; auto.
  Qed.
End Waiting.

(** ** parabolic SAR *)
Lemma fold_npmax_nan l : fold_left npmax l NaN = NaN.
Proof. induction l; cbn; auto. Qed.
Lemma fold_npmin_nan l : fold_left npmin l NaN = NaN.
Proof. induction l; cbn; auto. Qed.
Lemma npmax_nan x : npmax x NaN = NaN. Proof. destruct x; reflexivity. Qed.
Lemma npmin_nan x : npmin x NaN = NaN. Proof. destruct x; reflexivity. Qed.
Lemma fold_max_in l : forall x, In NaN l -> fold_left npmax l x = NaN.
Proof. induction l as [|y l IH]; intros x []; cbn [fold_left]; [subst y; rewrite npmax_nan; apply fold_npmax_nan|apply IH; auto]. Qed.
Lemma fold_min_in l : forall x, In NaN l -> fold_left npmin l x = NaN.
Proof. induction l as [|y l IH]; intros x []; cbn [fold_left]; [subst y; rewrite npmin_nan; apply fold_npmin_nan|apply IH; auto]. Qed.
Lemma max_nan_in l : In NaN l -> max_nan l = NaN.
Proof. destruct l as [|x l]; intros []; cbn [max_nan]; [subst x; apply fold_npmax_nan|apply fold_max_in; auto]. Qed.
Lemma min_nan_in l : In NaN l -> min_nan l = NaN.
Proof. destruct l as [|x l]; intros []; cbn [min_nan]; [subst x; apply fold_npmin_nan|apply fold_min_in; auto]. Qed.
Lemma slice_in {A} (s : list A) a j b d : (a <= j)%nat -> (j < b)%nat -> (j < List.length s)%nat -> In (nth j s d) (slice a b s).
Proof.
  intros A1 B L. unfold slice. replace (nth j s d) with (nth (j - a) (firstn (b - a) (skipn a s)) d).
  - apply nth_In. rewrite firstn_length, skipn_length. lia.
  - rewrite nth_firstn by lia. rewrite nth_skipn. f_equal. lia.
Qed.
Lemma SarFacts_len_go high low n : forall i st, List.length (sar_go high low n i st) = n.
Proof. induction n as [|n IH]; intros i st; cbn; auto. Qed.
Section SarGap.
  Variables (high low : series) (j : nat).
  Hypothesis JH : (j < List.length high)%nat.
  Hypothesis JL : (j < List.length low)%nat.
  Hypothesis GH : nth j high NaN = NaN.
  Hypothesis GL : nth j low NaN = NaN.
  Lemma slice_high a b : (a <= j)%nat -> (j < b)%nat -> max_nan (slice a b high) = NaN.
  Proof. intros. apply max_nan_in. rewrite <- GH at 1. apply slice_in; auto. Qed.
  Lemma slice_low a b : (a <= j)%nat -> (j < b)%nat -> min_nan (slice a b low) = NaN.
  Proof. intros. apply min_nan_in. rewrite <- GL at 1. apply slice_in; auto. Qed.
  Definition lost (st : sar_state) : Prop := sa_ep st = NaN /\ (sa_start st <= j)%nat.
  Lemma lost_next i st : (j < i)%nat -> lost st -> lost (sar_next high low i st) /\ sa_sar (sar_next high low i st) = NaN.
  Proof.
    intros I [E S0]. unfold sar_next. rewrite E. change (nsub NaN (sa_sar st)) with NaN. rewrite nmul_nan, nadd_nan.
    rewrite (slice_high (sa_start st) (S i)), (slice_low (sa_start st) (S i)) by lia.
    set (A := min_nan (slice (i - 2) i low)). set (B := max_nan (slice (i - 2) i high)).
    assert (PA : pymin NaN A = NaN) by (unfold pymin; destruct A; reflexivity).
    assert (PB : pymax NaN B = NaN) by (unfold pymax; destruct B; reflexivity). rewrite PA, PB.
    assert (C1 : forall x, ngtb x NaN = false) by (intros []; reflexivity). assert (C2 : forall x, nltb x NaN = false) by (intros []; reflexivity).
    destruct (sa_long st); rewrite ?C1, ?C2; cbn [negb andb orb]; (split; [split; [reflexivity|exact S0]|reflexivity]).
  Qed.
  Lemma lose st : (sa_start st < j)%nat -> lost (sar_next high low j st).
  Proof.
    intro S0. unfold sar_next. rewrite GH, GL.
    rewrite (slice_high (sa_start st) (S j)), (slice_low (sa_start st) (S j)) by lia.
    assert (C1 : forall x, ngtb NaN x = false) by (intros []; reflexivity). assert (C2 : forall x, nltb NaN x = false) by (intros []; reflexivity).
    rewrite C1, C2. destruct (sa_long st); cbn [negb andb orb]; (split; [reflexivity|cbn; lia]).
  Qed.
  Lemma start_next i st : (sa_start st <= i)%nat -> (sa_start (sar_next high low i st) <= i)%nat.
  Proof.
    intro S0. unfold sar_next. destruct ((negb (sa_long st) && _) || _); [destruct (sa_long st)|]; cbn [sa_start]; lia.
  Qed.
  Lemma lost_go fuel : forall i st m d, (j < i)%nat -> lost st -> (m < fuel)%nat -> sa_sar (nth m (sar_go high low fuel i st) d) = NaN.
  Proof.
    induction fuel as [|n IH]; intros i st m d I L M; [lia|]. cbn [sar_go]. destruct (lost_next i st I L) as [L' E]. destruct m as [|m]; [exact E|].
    cbn [nth]. apply IH; auto; lia.
  Qed.
  Lemma sar_go_gap fuel : forall i st m d, (i <= j)%nat -> (sa_start st < i)%nat -> (j < i + m)%nat -> (m < fuel)%nat -> sa_sar (nth m (sar_go high low fuel i st) d) = NaN.
  Proof.
    induction fuel as [|n IH]; intros i st m d I S0 J M; [lia|]. cbn [sar_go]. destruct m as [|m]; [lia|]. cbn [nth].
    destruct (Nat.eq_dec i j) as [->|N].
    - apply lost_go; [lia|apply lose; exact S0|lia].
    - apply IH; try lia. pose proof (start_next i st ltac:(lia)). lia.
  Qed.
  Lemma psar_gap k : List.length high = List.length low -> (j < k)%nat -> nth k (psar high low) NaN = NaN.
  Proof.
    intros LL JK. unfold psar. rewrite nth_sround. destruct (Nat.lt_ge_cases k (List.length high)) as [L|L].
    - assert (EN : exists n, List.length high = S n) by (exists (List.length high - 1)%nat; lia). destruct EN as (n & EN). unfold sar_states. rewrite EN. cbv zeta. cbn [map]. rewrite EN in L.
      destruct k as [|k]; [lia|]. cbn [nth]. set (s0 := sar_first high low).
      rewrite (nth_map sa_sar s0) by (rewrite SarFacts_len_go; lia). destruct (Nat.eq_dec j 0) as [Z|N].
      + rewrite lost_go; [reflexivity|lia| |lia]. unfold s0, sar_first. assert (G1 : nth 0 high NaN = NaN) by (rewrite <- Z; exact GH). assert (G2 : nth 0 low NaN = NaN) by (rewrite <- Z; exact GL). rewrite G1, G2. destruct (nth 1 high NaN); split; cbn; first [reflexivity|apply Nat.le_0_l].
      + rewrite sar_go_gap; [reflexivity|lia| |lia|lia]. unfold s0, sar_first. destruct (ngtb _ _); cbn; lia.
    - rewrite (nth_overflow (map _ _)); [reflexivity|]. rewrite map_length. unfold sar_states. destruct (List.length high) as [|n]; [cbn; lia|]. cbn [List.length]. rewrite SarFacts_len_go. lia.
  Qed.
End SarGap.

Lemma sar_lost o raw b ob j k : wf_raw raw -> snd (construct o cPSAR (RFrame raw) (VBool b)) = Ok ob -> (j < k)%nat ->
  given "high" ob j = NaN -> given "low" ob j = NaN -> shown "sar" ob k = NaN.
Proof.
  intros W H JK GH GL. look f V VV. rewrite (view_given V) in GH, GL by req. unfold shown. shown V.
  pose proof (view_length V "high" ltac:(req)) as LH. pose proof (view_length V "low" ltac:(req)) as LL.
  destruct (Nat.lt_ge_cases j (List.length (rows f))) as [L|L].
  - apply (psar_gap _ _ j); auto; congruence.
  - apply nth_overflow. unfold psar, sround, smap. rewrite !map_length. unfold sar_states. rewrite LH. destruct (List.length (rows f)); [cbn; lia|]. cbn [List.length]. rewrite SarFacts_len_go. lia.
Qed.
