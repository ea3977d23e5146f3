(** * MemoryApi: how far back a published cell looks, for every object a constructor returns. *)
From Coq Require Import ZArith QArith Qcanon Bool List String PeanoNat Lia Sorted Permutation.
From Verif Require Import Num NumFacts Pandas Sim Frame FrameSpec FrameProofs Ind Signal Api IndSpec SeriesFacts Lengths Causal IndFacts Shape ApiSpec ApiCheck ApiProofs ApiLemmas RangeSpec Cells RangeFacts RangeMore Publish RangeApi ValueSpec ValueFacts ValueMore ValueApi MemorySpec MemoryFacts.
Import ListNotations.
Open Scope list_scope. Open Scope string_scope.
Notation length := List.length.

Lemma raw_map raw c k rs : position c (str_labels raw) = Some k -> map (fun r : row => nth k (snd r) NaN) rs = map (raw_cell raw c) rs.
Proof. intro P. apply map_ext. intro r. unfold raw_cell. rewrite P. reflexivity. Qed.
Lemma unfilled_col raw req b f c : wf_raw raw -> snd (validate (RFrame raw) req b) = Ok f -> unfilled req b raw -> In c req ->
  col c f = map (raw_cell raw c) (sort_rows (r_rows raw)).
Proof.
  intros W V U I.
  assert (A : acceptable (RFrame raw) req) by (apply (validate_accepts _ _ b); eauto).
  destruct A as [f' [E [H1 [H2 [H3 [H4 [H5 H6]]]]]]]. injection E as <-.
  destruct W as [_ HR]. assert (HR' := HR). rewrite <- (str_labels_len raw H4) in HR'.
  destruct (H5 c I) as [_ (kc & KC & _)].
  pose proof (sort_drop_col req (str_labels raw) (r_rows raw) c kc HR' I KC) as SC. rewrite (raw_map raw c kc) in SC by exact KC.
  pose proof (validate_out _ _ _ _ V) as O. cbv zeta in O. subst f. destruct b; [|exact SC].
  destruct U as [U|U]; [discriminate|].
  set (g0 := sort_index (drop_cols req (str_labels raw) (r_rows raw))) in *.
  assert (W0 : wf g0) by (unfold wf, g0; apply sort_rect; apply (drop_cols_wf req _ _ HR')).
  rewrite (fill_col g0 c W0) by (apply index_sort_sorted). rewrite SC.
  apply nth_ext with (d := NaN) (d' := NaN); [rewrite map_length, seq_length; reflexivity|].
  intros k L. rewrite map_length, seq_length in L. rewrite nth_map_seq by exact L. apply nearest_present; [|exact L].
  erewrite nth_map by (rewrite map_length in L; exact L). instantiate (1 := (0%Z, [])).
  assert (IR : In (nth k (sort_rows (r_rows raw)) (0%Z, [])) (r_rows raw)).
  { eapply Permutation_in; [apply sort_rows_perm|]. apply nth_In. rewrite map_length in L. exact L. }
  specialize (U c _ I IR). destruct (raw_cell _ _ _); auto. congruence.
Qed.
(** ** dropping the rows before t *)
Lemma since_rows t (l : list row) : StronglySorted row_le l ->
  filter (fun r => Z.leb t (fst r)) l = skipn (length (filter (fun r : row => Z.ltb (fst r) t) l)) l.
Proof.
  induction 1 as [|r l S IH F]; [reflexivity|]. cbn [filter]. rewrite Z.ltb_antisym. destruct (Z.leb_spec t (fst r)) as [L|L]; cbn [negb length skipn].
  - assert (E : filter (fun x : row => Z.ltb (fst x) t) l = []).
    { rewrite Forall_forall in F. clear - F L. induction l as [|x l IH]; [reflexivity|]. cbn [filter].
      pose proof (F x (or_introl eq_refl)) as X. unfold row_le in X. destruct (Z.ltb_spec (fst x) t); [lia|]. apply IH. intros y Y. apply F. right; auto. }
    assert (E' : filter (fun x : row => Z.leb t (fst x)) l = l).
    { rewrite Forall_forall in F. clear - F L. induction l as [|x l IH]; [reflexivity|]. cbn [filter].
      pose proof (F x (or_introl eq_refl)) as X. unfold row_le in X. destruct (Z.leb_spec t (fst x)); [|lia]. f_equal. apply IH. intros y Y. apply F. right; auto. }
    rewrite E. cbn [length skipn]. f_equal. exact E'.
  - exact IH.
Qed.
Lemma filter_perm_len (p : row -> bool) l l' : Permutation l l' -> length (filter p l) = length (filter p l').
Proof. induction 1; cbn; auto; repeat match goal with |- context [p ?x] => destruct (p x) end; cbn; congruence. Qed.
Lemma since_sorted t raw : sort_rows (r_rows (since t raw)) = skipn (earlier t raw) (sort_rows (r_rows raw)).
Proof.
  unfold since, earlier. cbn [r_rows]. rewrite (sort_filter (fun d => Z.leb t d)), since_rows by apply sort_rows_sorted.
  f_equal. apply filter_perm_len, sort_rows_perm.
Qed.
Lemma earlier_len t raw : length (sort_rows (r_rows raw)) = (earlier t raw + length (sort_rows (r_rows (since t raw))))%nat.
Proof.
  rewrite since_sorted, skipn_length.
  assert (earlier t raw <= length (sort_rows (r_rows raw)))%nat; [|lia].
  rewrite (Permutation_length (sort_rows_perm (r_rows raw))). unfold earlier. induction (r_rows raw) as [|r l IH]; [cbn; lia|]. cbn. destruct (Z.ltb _ _); cbn; lia.
Qed.
Lemma T_since {B} t raw (g : row -> B) : tailed (earlier t raw) 0 (map g (sort_rows (r_rows raw))) (map g (sort_rows (r_rows (since t raw)))).
Proof.
  split; [rewrite !map_length; apply earlier_len|]. cbn [skipn]. rewrite Nat.add_0_r, since_sorted, skipn_map. reflexivity.
Qed.
Lemma since_wf t raw : wf_raw raw -> wf_raw (since t raw).
Proof. intros [A B]. split; [exact A|]. intros r I. apply filter_In in I as [I _]. apply B; auto. Qed.
Lemma since_unfilled t raw cs b : unfilled cs b raw -> unfilled cs b (since t raw).
Proof. intros [H|H]; [left; auto|right]. intros c r I J. apply filter_In in J as [J _]. apply H; auto. Qed.
Lemma gapless_unfilled cs b raw : gapless cs raw -> unfilled cs b raw.
Proof. right. auto. Qed.

Section Two.
  Variables (o : oracle) (i : ind) (raw : rawframe) (b : bool) (t : Z) (ob ob' : obj) (f f' : frame).
  Hypothesis W : wf_raw raw.
  Hypothesis V : view o i raw b ob f.
  Hypothesis V' : view o i (since t raw) b ob' f'.
  Let d := earlier t raw.
  Lemma two_col c : unfilled (required i) b raw -> In c (required i) -> tailed d 0 (col c f) (col c f').
  Proof.
    intros U I. rewrite (unfilled_col raw (required i) b f c W (v_val _ _ _ _ _ _ V) U I).
    rewrite (unfilled_col (since t raw) (required i) b f' c (since_wf _ _ W) (v_val _ _ _ _ _ _ V') (since_unfilled _ _ _ _ U) I).
    apply T_since.
  Qed.
  Lemma gapless_filled g raw0 ob0 c : wf_raw raw0 -> view o i raw0 b ob0 g -> gapless (required i) raw0 -> In c (required i) ->
    col c (fill_missing g) = col c g.
  Proof.
    intros W0 V0 G I. pose proof (v_good _ _ _ _ _ _ V0) as (G1 & G2 & G3). rewrite (fill_col g c G2 G3).
    apply nth_ext with (d := NaN) (d' := NaN); [rewrite map_length, seq_length; reflexivity|].
    intros k L. rewrite map_length, seq_length in L. rewrite nth_map_seq by auto. apply nearest_present; auto.
    rewrite (view_length V0) in L by exact I.
    destruct (validated_row _ _ _ _ W0 (v_val _ _ _ _ _ _ V0) (gapless_unfilled _ b _ G) k L) as (r & R & C). rewrite C by exact I.
    specialize (G c r I R). destruct (raw_cell _ _ _); auto. congruence.
  Qed.
  Lemma two_fill c : gapless (required i) raw -> In c (required i) -> tailed d 0 (col c (fill_missing f)) (col c (fill_missing f')).
  Proof.
    intros G I. rewrite (gapless_filled f raw ob c W V G I).
    assert (G' : gapless (required i) (since t raw)) by (intros c0 r I0 J; apply filter_In in J as [J _]; apply (G c0 r I0 J)).
    rewrite (gapless_filled f' (since t raw) ob' c (since_wf _ _ W) V' G' I). apply two_col; auto using gapless_unfilled.
  Qed.
End Two.

(** goal-directed: each operation says how far back its input must agree *)
Ltac tail_step :=
  first
  [ eassumption
  | match goal with |- tailed _ ?n ?a ?b => is_var a; is_var b; eapply (T_le _ 0); [lia|eassumption] end
  | apply T_pb_band; [lia|lia|] | apply T_lri; [lia|lia|] | apply T_lrs; [lia|lia|] | apply T_tsf_raw; [lia|lia|]
  | apply T_repeat
  | apply T_szip | apply T_combine | apply T_map
  | apply T_shift; [lia|] | apply T_shift_back | apply T_from_row; [lia|]
  | apply T_rolling; [lia|lia|] ].
Ltac tails :=
  unfold bb_middle, bb_upper, bb_lower, cmf, money_flow, cmo, dpo, emv, emv_ma, emv_raw, env_upper, env_lower, fosc, tsf,
    ich_tenkan, ich_kijun, ich_senkou_a, ich_senkou_b, ich_mid, imi, mfi, mp, mom, pch_high, pch_low, price_osc, prc, pb_upper, pb_lower,
    proj, proj_raw, qstick, sd, so_d, so_k, swi, tp, uo, uo_ratio, uo_high, uo_low, vhf, vosc, vrc, wc, wad, wr, assign,
    sround, scale, sdivc, saddc, sabs, sadd, ssub, smul, sdiv, drop_neg, drop_pos, row2, row3, sdiff, smap, roll_sum, roll_mean, roll_max, roll_min, roll_std, roll_wmean in *;
  cbv zeta; repeat tail_step.
Lemma T_cci d n p h h' l l' c c' : (1 <= p)%nat -> (p - 1 <= n)%nat -> tailed d 0 h h' -> tailed d 0 l l' -> tailed d 0 c c' ->
  tailed d n (cci p h l c) (cci p h' l' c').
Proof.
  intros P N H L C. assert (T : forall m, tailed d m (cci_tp h l c) (cci_tp h' l' c')).
  { intro m. unfold cci_tp, row3, sdivc, smap. apply T_map, T_szip3; eapply (T_le _ 0); eauto; lia. }
  assert (R : tailed d n (roll_mean p (cci_tp h l c)) (roll_mean p (cci_tp h' l' c'))) by (apply T_rolling; auto).
  unfold cci. cbv zeta. apply T_map. apply T_szip; [apply T_szip; auto|]. apply T_map, T_map. apply T_cci_diff; auto.
Qed.
Lemma T_dpo d p c c' : (1 <= p)%nat -> tailed d 0 c c' -> tailed d (p - 1 - S (p / 2)) (dpo p c) (dpo p c').
Proof.
  intros P C. unfold dpo. generalize (p / 2)%nat as q. intro q. apply T_map, T_szip; [eapply (T_le _ 0); [lia|exact C]|].
  apply T_shift_back. apply T_rolling; [lia|lia|]. eapply (T_le _ 0); [lia|exact C].
Qed.
Ltac name_cases :=
  repeat match goal with
  | H : (if String.eqb ?x ?y then _ else _) = Some _ |- _ => destruct (String.eqb_spec x y); [subst x|]
  end.
Lemma two_cells o d i f f' name s s' n : valid i ->
  (forall c, In c (required i) -> tailed d 0 (col c f) (col c f')) ->
  (nested i = true -> forall c, In c (required i) -> tailed d 0 (col c (fill_missing f)) (col c (fill_missing f'))) ->
  lookup name (ti_cols o i f) = Some s -> lookup name (ti_cols o i f') = Some s' -> lookback i name = Some n -> tailed d n s s'.
Proof.
  intros VI HC HF L L' B.
  pose proof (HC "close") as C1. pose proof (HC "high") as C2. pose proof (HC "low") as C3. pose proof (HC "volume") as C4. pose proof (HC "open") as C5.
  pose proof (fun N => HF N "close") as F1. pose proof (fun N => HF N "high") as F2. pose proof (fun N => HF N "low") as F3. clear HC HF.
  set (c := col "close" f) in *. set (c' := col "close" f') in *. set (h := col "high" f) in *. set (h' := col "high" f') in *.
  set (l := col "low" f) in *. set (l' := col "low" f') in *. set (v := col "volume" f) in *. set (v' := col "volume" f') in *.
  set (op := col "open" f) in *. set (op' := col "open" f') in *.
  set (fc := col "close" (fill_missing f)) in *. set (fc' := col "close" (fill_missing f')) in *.
  set (fh := col "high" (fill_missing f)) in *. set (fh' := col "high" (fill_missing f')) in *.
  set (fl := col "low" (fill_missing f)) in *. set (fl' := col "low" (fill_missing f')) in *.
  destruct i; try match goal with t : ma_type |- _ => destruct t end; try match goal with m : perf_mode |- _ => destruct m end;
    cbn [ti_cols lookup ma_name perf_name required nested valid] in *; name_cases; try discriminate; cbn [lookback] in B; try discriminate;
    injection B as <-; injection L as <-; injection L' as <-;
    try specialize (C1 ltac:(cbn; auto 8)); try specialize (C2 ltac:(cbn; auto 8)); try specialize (C3 ltac:(cbn; auto 8));
    try specialize (C4 ltac:(cbn; auto 8)); try specialize (C5 ltac:(cbn; auto 8));
    try specialize (F1 eq_refl ltac:(cbn; auto 8)); try specialize (F2 eq_refl ltac:(cbn; auto 8)); try specialize (F3 eq_refl ltac:(cbn; auto 8));
    fold c c' h h' l l' v v' op op' fc fc' fh fh' fl fl';
    clearbody c c' h h' l l' v v' op op' fc fc' fh fh' fl fl';
    try (apply T_cci; auto; lia).
  all: try (apply T_dpo; auto; fail).
  all: try match goal with m : d_method |- _ => destruct m end.
  all: tails.
Qed.
Lemma lookup_names o i f name : In name (map fst (ti_cols o i f)) -> exists s, lookup name (ti_cols o i f) = Some s.
Proof.
  induction (ti_cols o i f) as [|[x s] r IH]; intro H; [destruct H|]. cbn [lookup]. destruct (String.eqb_spec name x) as [E|E]; [eauto|].
  apply IH. cbn [map fst] in H. destruct H as [H|H]; [exfalso; apply E; symmetry; exact H|exact H].
Qed.
Lemma index_sorted raw req b f : wf_raw raw -> snd (validate (RFrame raw) req b) = Ok f -> index f = map fst (sort_rows (r_rows raw)).
Proof.
  intros W V. pose proof (validate_out _ _ _ _ V) as O. cbv zeta in O.
  assert (E : index (sort_index (drop_cols req (str_labels raw) (r_rows raw))) = map fst (sort_rows (r_rows raw))).
  { unfold index, sort_index, drop_cols. cbn [cols rows]. rewrite sort_rows_map by reflexivity. rewrite map_map. reflexivity. }
  subst f. destruct b; [|exact E]. rewrite fill_missing_dates, sort_index_id; [exact E|]. apply index_sort_sorted.
Qed.
Lemma construct_since o c raw b ob ob' t name n k : wf_raw raw ->
  snd (construct o c (RFrame raw) (VBool b)) = Ok ob ->
  snd (construct o c (RFrame (since t raw)) (VBool b)) = Ok ob' ->
  (b = true \/ nested (ob_ind ob) = true -> gapless (required (ob_ind ob)) raw) ->
  In name (cols (get_ti_data ob)) -> lookback (ob_ind ob) name = Some n -> (n <= k)%nat -> (k < length (rows (get_ti_data ob')))%nat ->
  nth k (index (get_ti_data ob')) 0%Z = nth (earlier t raw + k) (index (get_ti_data ob)) 0%Z /\
  shown name ob' k = shown name ob (earlier t raw + k).
Proof.
  intros W H H' G IN LB N K.
  destruct (construct_view _ _ _ _ _ W H) as (f & V). destruct (construct_view _ _ _ _ _ (since_wf t _ W) H') as (f' & V').
  pose proof (v_ind _ _ _ _ _ _ V) as EI. rewrite EI in *. remember (asked c) as i eqn:AC. clear AC.
  assert (U : unfilled (required i) b raw) by (destruct b; [apply gapless_unfilled; auto|left; reflexivity]).
  apply construct_inv in H as (i0 & raw0 & b0 & f0 & CK & Q & B & VV & KK & EI0). injection Q as <-. injection B as <-. rewrite EI in EI0. subst i0.
  apply construct_inv in H' as (i0 & raw0 & b0 & f0' & CK' & Q' & B' & VV' & KK' & EI0'). injection Q' as <-. injection B' as <-.
  rewrite CK in CK'. injection CK' as <-.
  assert (f0 = f) by (pose proof (v_val _ _ _ _ _ _ V) as X; congruence). subst f0.
  assert (f0' = f') by (pose proof (v_val _ _ _ _ _ _ V') as X; congruence). subst f0'.
  apply calc_ok in KK as [E _]. injection E as _ ET. apply calc_ok in KK' as [E' _]. injection E' as _ ET'.
  unfold shown, cell_at. change (get_ti_data ob) with (ob_ti ob) in *. change (get_ti_data ob') with (ob_ti ob') in *. rewrite ET, ET' in *.
  rewrite mk_ti_cols in IN. destruct (lookup_names _ _ _ _ IN) as [s L].
  assert (IN' : In name (map fst (ti_cols o i f'))).
  { replace (map fst (ti_cols o i f')) with (map fst (ti_cols o i f)); [exact IN|]. destruct i; reflexivity. }
  destruct (lookup_names _ _ _ _ IN') as [s' L'].
  assert (TT : tailed (earlier t raw) n s s').
  { eapply (two_cells o _ i f f' name s s' n); eauto.
    - apply (v_valid _ _ _ _ _ _ V).
    - intros x X. eapply two_col; eauto.
    - intros NE x X. eapply two_fill; eauto. }
  rewrite mk_ti_rows_len in K. rewrite !mk_ti_index.
  pose proof (index_sorted _ _ _ _ W (v_val _ _ _ _ _ _ V)) as X. pose proof (index_sorted _ _ _ _ (since_wf t _ W) (v_val _ _ _ _ _ _ V')) as X'.
  assert (TX : tailed (earlier t raw) 0 (index f) (index f')) by (rewrite X, X'; apply T_since). clear X X'.
  assert (LS : length s = length (index f)) by (rewrite len_index; eapply ti_cols_len; [apply (v_good _ _ _ _ _ _ V)|apply (v_enough _ _ _ _ _ _ V)|eapply lookup_In; eauto]).
  assert (LS' : length s' = length (index f')) by (rewrite len_index; eapply ti_cols_len; [apply (v_good _ _ _ _ _ _ V')|apply (v_enough _ _ _ _ _ _ V')|eapply lookup_In; eauto]).
  pose proof (proj1 TT) as LT.
  assert (IK : (k < length (ti_index i f'))%nat -> (earlier t raw + k < length (ti_index i f))%nat).
  { clear - LS LS' LT. pose proof (len_index f). pose proof (len_index f'). destruct i; cbn [ti_index]; rewrite ?firstn_length; lia. }
  specialize (IK K).
  split.
  - destruct i; cbn [ti_index] in *; try (apply (T_nth _ _ _ _ k 0%Z TX); lia).
    rewrite firstn_length in K, IK. rewrite !nth_firstn by lia. apply (T_nth _ _ _ _ k 0%Z TX). lia.
  - assert (M : (length (ti_index i f) <= length s)%nat) by (rewrite LS; clear; destruct i; cbn [ti_index]; rewrite ?firstn_length; lia).
    assert (M' : (length (ti_index i f') <= length s')%nat) by (rewrite LS'; clear; destruct i; cbn [ti_index]; rewrite ?firstn_length; lia).
    rewrite (col_mk_ti _ _ _ _ L M), (col_mk_ti _ _ _ _ L' M'). rewrite !nth_firstn by lia. apply (T_nth _ _ _ _ k NaN TT N).
Qed.

(** ** lines that remember everything: a running total and an exponential average *)
From Verif Require Import Recur CumulApi FormulaSpec FormulaApi.
Section Carried.
  Local Open Scope Qc_scope.
  Lemma obv_rebased c v d k : obv_line (fun j => c (d + j)%nat) (fun j => v (d + j)%nat) k = obv_line c v (d + k) - obv_line c v d.
  Proof.
    induction k as [|k IH]; [rewrite Nat.add_0_r; cbn [obv_line]; ring|]. rewrite Nat.add_succ_r. cbn [obv_line]. rewrite IH. rewrite !Nat.add_succ_r.
    destruct (qltb _ _); [ring|]. destruct (qltb _ _); ring.
  Qed.
  Lemma ema_forgets a f d k : ema a f (d + k) - ema a (fun j => f (d + j)%nat) k = (1 - a) ^ k * (ema a f d - f d).
  Proof.
    induction k as [|k IH]; [rewrite Nat.add_0_r; cbn [ema Qcpower]; rewrite Nat.add_0_r; ring|].
    rewrite Nat.add_succ_r. cbn [ema Qcpower]. rewrite Nat.add_succ_r.
    transitivity ((1 - a) * (ema a f (d + k) - ema a (fun j => f (d + j)%nat) k)); [ring|]. rewrite IH. ring.
  Qed.
  Variables (o : oracle) (raw : rawframe) (b : bool) (ob ob' : obj) (t : Z).
  Hypothesis W : wf_raw raw.
  Notation d := (earlier t raw).
  Notation constructed c := (snd (construct o c (RFrame raw) (VBool b)) = Ok ob).
  Notation again c := (snd (construct o c (RFrame (since t raw)) (VBool b)) = Ok ob').
  Lemma given_since c x k q : constructed c -> again c -> unfilled (required (asked c)) b raw -> In x (required (asked c)) ->
    known (given x ob) (d + k) q -> known (given x ob') k (fun j => q (d + j)%nat).
  Proof.
    intros H H' U I K j J. destruct (construct_view _ _ _ _ _ W H) as (f & V). destruct (construct_view _ _ _ _ _ (since_wf t _ W) H') as (f' & V').
    rewrite (view_given V' x j I). rewrite (T_nth _ _ _ _ j NaN (two_col o _ raw b t ob ob' f f' W V V' x U I)) by lia.
    rewrite <- (view_given V x _ I). apply K. lia.
  Qed.
  Lemma obv_since k cx vx : constructed cOBV -> again cOBV -> unfilled ["close"; "volume"] b raw ->
    known (given "close" ob) (d + k) cx -> known (given "volume" ob) (d + k) vx ->
    exists at_t total, shown "obv" ob d = Fin at_t /\ shown "obv" ob (d + k) = Fin total /\ shown "obv" ob' k = Fin (total - at_t).
  Proof.
    intros H H' U KC KV. exists (obv_line cx vx d), (obv_line cx vx (d + k)). repeat split.
    - eapply obv_shown_line; eauto; intros j J; [apply KC|apply KV]; lia.
    - eapply obv_shown_line; eauto.
    - rewrite <- obv_rebased. apply (obv_shown_line o (since t raw) b ob' (since_wf t _ W)); auto.
      + apply (given_since cOBV); auto. cbn; auto.
      + apply (given_since cOBV); auto. cbn; auto.
  Qed.
  Lemma ema_since p k c : constructed (cMA p (VStr "exponential")) -> again (cMA p (VStr "exponential")) -> unfilled ["close"] b raw ->
    known (given "close" ob) (d + k) c -> (nat_arg p - 1 <= k)%nat ->
    exists long short, shown "ma-exponential" ob (d + k) = Fin (r4 long) /\ shown "ma-exponential" ob' k = Fin (r4 short) /\
      long - short = (1 - span (nat_arg p)) ^ k * (ema_from 0 (nat_arg p) c d - c d).
  Proof.
    intros H H' U KC P. exists (ema_from 0 (nat_arg p) c (d + k)), (ema_from 0 (nat_arg p) (fun j => c (d + j)%nat) k).
    pose proof (exponential_moving_average_shown o raw b ob W p (d + k) c H KC) as A. cbv zeta in A.
    assert (KC' : known (given "close" ob') k (fun j => c (d + j)%nat)) by (eapply given_since; eauto; cbn; auto).
    pose proof (exponential_moving_average_shown o (since t raw) b ob' (since_wf t _ W) p k _ H' KC') as B. cbv zeta in B.
    unfold from in A, B. destruct (Nat.ltb_spec (d + k) (nat_arg p - 1)); [lia|]. destruct (Nat.ltb_spec k (nat_arg p - 1)); [lia|].
    split; [exact A|]. split; [exact B|]. unfold ema_from. rewrite !Nat.sub_0_r. cbn [Nat.add].
    apply (ema_forgets (span (nat_arg p)) c d k).
  Qed.
End Carried.
