(** * IndFacts: shape of what the calculations produce. *)
From Coq Require Import ZArith QArith Qcanon Bool List String PeanoNat Lia Sorted.
From Verif Require Import Num NumFacts Pandas Sim Frame FrameSpec FrameProofs Ind Signal Api IndSpec SeriesFacts Causal.
Import ListNotations.
Open Scope list_scope.

(** ** parameters *)
Definition valid (i : ind) : Prop :=
  match i with
  | iBB p _ | iCMF p | iCMO p | iCCI p | iDPO p | iDEMA p | iEMV p | iENV p _ | iIMI p | iLRS p
  | iMP p | iMOM p | iMA p _ | iPCH p | iPRC p | iQS p | iRSI p | iRVI p | iSD p | iTEMA p | iTP p
  | iVHF p | iVRC p | iWS p | iWR p => (1 <= p)%nat
  | iFOSC p | iLRI p | iPB p | iPROJ p | iTSF p => (2 <= p)%nat
  | iPOSC a b | iVOSC a b => (1 <= b < a)%nat
  | iRI a b | iRMI a b | iVCH a b => (1 <= a)%nat /\ (1 <= b)%nat
  | iSMI a b c => (1 <= a)%nat /\ (1 <= b)%nat /\ (1 <= c)%nat
  | iSO a b c _ => (1 <= a)%nat /\ (b = 1 \/ b = 3)%nat /\ (1 <= c)%nat
  | _ => True
  end.
Lemma int_above_ok low name v n : (0 <= low)%Z -> int_above low name v = Ok n -> (low < Z.of_nat n)%Z.
Proof.
  unfold int_above. intros H. destruct (int_of v); [|discriminate]. destruct (Z.ltb_spec low z); [|discriminate].
  intro E. injection E as <-. lia.
Qed.
Lemma one_ok f low p i : (0 <= low)%Z -> one f low p = Ok i -> exists n, i = f n /\ (low < Z.of_nat n)%Z.
Proof.
  unfold one. intros H E. destruct (int_above low "period" p) eqn:A; [|discriminate].
  injection E as <-. eexists; split; [reflexivity|]. eapply int_above_ok; eauto.
Qed.
Lemma bind_ok {A B} (x : res A) (f : A -> res B) b : bind x f = Ok b -> exists a, x = Ok a /\ f a = Ok b.
Proof. destruct x; [eauto|discriminate]. Qed.

Lemma check_ma_ok p t i : check (cMA p t) = Ok i -> exists n ty, i = iMA n ty /\ (1 <= n)%nat /\ (ty = MTimeSeries -> (2 <= n)%nat).
Proof.
  cbn. intro H. apply bind_ok in H as (n & Hn & H). apply bind_ok in H as (ty & Hty & H). injection H as <-.
  exists n, ty. split; [reflexivity|]. unfold check_ma_period, check_ma_type in *.
  destruct (int_of p) as [z|]; [|discriminate]. destruct t; try discriminate.
  split.
  - destruct (_ && _); [discriminate|]. destruct (Z.ltb_spec 0 z); [|discriminate]. injection Hn as <-. lia.
  - intros ->.
    destruct (String.eqb s "simple"); [discriminate|]. destruct (String.eqb s "exponential"); [discriminate|].
    destruct (String.eqb s "time_series").
    + cbn in Hn. destruct (Z.ltb_spec z 2); [discriminate|]. destruct (Z.ltb_spec 0 z); [|discriminate]. injection Hn as <-. lia.
    + destruct (String.eqb s "triangular"); [discriminate|]. destruct (String.eqb s "variable"); discriminate.
Qed.

Lemma accepted_valid i : accepted i -> valid i.
Proof.
  intros [c H]. destruct c; cbn [check] in H;
  try (injection H as <-; exact I);
  try (apply one_ok in H; [|lia]; destruct H as (n & -> & L); cbn; lia);
  try (match type of H with check_ma_period _ _ = _ => idtac | _ => idtac end).
  all: try (repeat (apply bind_ok in H; destruct H as (? & ? & H));
            repeat match goal with E : int_above _ _ _ = Ok _ |- _ => apply int_above_ok in E; [|lia] end;
            try match type of H with (if ?b then _ else _) = _ => destruct b eqn:?; [discriminate|] end;
            injection H as <-; cbn [valid];
            try match goal with E : Nat.leb _ _ = false |- _ => apply Nat.leb_gt in E end;
            repeat split; try lia; fail).
  - apply (check_ma_ok period ma_type i) in H. destruct H as (n & ty & -> & L & _). cbn. lia.
  - repeat (apply bind_ok in H; destruct H as (? & ? & H)). injection H as <-.
    repeat match goal with E : int_above _ _ _ = Ok _ |- _ => apply int_above_ok in E; [|lia] end.
    cbn. repeat split; try lia. unfold check_slowing in *. destruct (int_of k_slowing_periods); [|discriminate].
    destruct (Z.eqb_spec z 1), (Z.eqb_spec z 3); cbn in *; try discriminate;
    match goal with E : Ok _ = Ok _ |- _ => injection E as <- end; subst; cbn; auto.
Qed.

(** ** prefixes of frames *)
Lemma index_fprefix n f : index (fprefix n f) = firstn n (index f).
Proof. unfold index, fprefix. cbn. apply map_firstn. Qed.
Lemma col_fprefix n c f : col c (fprefix n f) = firstn n (col c f).
Proof. unfold col, fprefix. cbn. destruct (position c (cols f)); [apply map_firstn|]. rewrite firstn_nil. reflexivity. Qed.
Lemma icol_fprefix n k f : icol k (fprefix n f) = firstn n (icol k f).
Proof. unfold icol, fprefix. cbn. apply map_firstn. Qed.
Lemma len_rows_fprefix n f : length (rows (fprefix n f)) = Nat.min n (length (rows f)).
Proof. cbn. apply firstn_length. Qed.
Lemma len_index f : length (index f) = length (rows f).
Proof. apply map_length. Qed.
Lemma len_icol k f : length (icol k f) = length (rows f).
Proof. apply map_length. Qed.
Lemma len_col c f : In c (cols f) -> length (col c f) = length (rows f).
Proof.
  intro H. unfold col. apply position_In in H as [k ->]. apply map_length.
Qed.
Lemma SS_firstn (l : list Z) n : StronglySorted Z.le l -> StronglySorted Z.le (firstn n l).
Proof.
  revert n; induction l as [|x r IH]; intros [|n] H; cbn; auto using SSorted_nil.
  inversion H; subst. constructor; auto. rewrite Forall_forall in *. intros y Hy. apply H3.
  rewrite <- (firstn_skipn n r). apply in_or_app; auto.
Qed.

Lemma upto_sorted t (l : list row) : StronglySorted Z.le (map fst l) ->
  filter (fun r => Z.leb (fst r) t) l = firstn (length (filter (fun r : row => Z.leb (fst r) t) l)) l.
Proof.
  induction l as [|r l IH]; intro H; [reflexivity|]. cbn [filter map] in *. inversion H; subst.
  destruct (Z.leb_spec (fst r) t) as [L|L].
  - cbn [length firstn]. f_equal. apply IH; auto.
  - assert (E : filter (fun r : row => Z.leb (fst r) t) l = []).
    { apply Forall_map in H3. clear - H3 L. induction l as [|x l IH]; [reflexivity|].
      inversion H3; subst. cbn [filter]. destruct (Z.leb_spec (fst x) t); [lia|]. auto. }
    rewrite E. exact E.
Qed.
Lemma upto_prefix t f : StronglySorted Z.le (index f) ->
  upto t f = fprefix (length (rows (upto t f))) f.
Proof. intro H. unfold upto, fprefix. cbn [rows cols]. f_equal. apply upto_sorted. exact H. Qed.

(** ** the frame built from columns *)
Fixpoint lookup (name : string) (cs : list (string * series)) : option series :=
  match cs with
  | [] => None
  | (n, s) :: r => if String.eqb name n then Some s else lookup name r
  end.

Lemma mk_ti_index idx cs : index (mk_ti idx cs) = idx.
Proof.
  unfold index, mk_ti. cbn [rows]. rewrite map_map. cbn [fst].
  assert (G : forall k, map (fun it : nat * Z => snd it) (combine (seq k (List.length idx)) idx) = idx).
  { induction idx as [|x r IH]; intros; [reflexivity|]. cbn. f_equal. apply IH. }
  apply G.
Qed.
Lemma mk_ti_rows_len idx cs : length (rows (mk_ti idx cs)) = length idx.
Proof. rewrite <- len_index, mk_ti_index. reflexivity. Qed.
Lemma mk_ti_cols idx cs : cols (mk_ti idx cs) = map fst cs.
Proof. reflexivity. Qed.
Lemma mk_ti_wf idx cs r : In r (rows (mk_ti idx cs)) -> length (snd r) = length (cols (mk_ti idx cs)).
Proof.
  cbn. intro H. apply in_map_iff in H as (it & <- & _). cbn. rewrite !map_length. reflexivity.
Qed.
Lemma skipn_S {A} k (l : list A) : skipn (S k) l = tl (skipn k l).
Proof. revert l; induction k; intros [|x l]; try reflexivity. apply (IHk l). Qed.
Lemma nth_map_nth (idx : list Z) (s : series) : (length idx <= length s)%nat ->
  map (fun it : nat * Z => nth (fst it) s NaN) (combine (seq 0 (length idx)) idx) = firstn (length idx) s.
Proof.
  intro H.
  assert (G : forall k, (k + length idx <= length s)%nat ->
    map (fun it : nat * Z => nth (fst it) s NaN) (combine (seq k (length idx)) idx) = firstn (length idx) (skipn k s)).
  { clear H. induction idx as [|x r IH]; intros k H; [reflexivity|]. cbn [length seq combine map fst] in *.
    rewrite IH by lia. rewrite <- (Nat.add_0_r k) at 1. rewrite <- nth_skipn.
    destruct (skipn k s) as [|y t] eqn:E.
    - apply (f_equal (@List.length num)) in E. rewrite skipn_length in E. cbn in E. lia.
    - cbn [nth firstn]. f_equal. f_equal.
      rewrite skipn_S, E. reflexivity. }
  rewrite G by lia. reflexivity.
Qed.
Lemma position_lookup name cs k : position name (map fst cs) = Some k ->
  exists s, lookup name cs = Some s /\ nth k cs (EmptyString, []) = (nth k (map fst cs) EmptyString, s) /\ (k < length cs)%nat.
Proof.
  revert k; induction cs as [|[n s] r IH]; intros k H; [discriminate|].
  cbn [map position fst lookup] in *. destruct (String.eqb name n) eqn:E.
  - injection H as <-. exists s. cbn. repeat split; lia.
  - destruct (position name (map fst r)) as [j|] eqn:P; [|discriminate]. injection H as <-.
    destruct (IH j eq_refl) as (s' & A & B & C). exists s'. cbn. repeat split; auto; lia.
Qed.
Lemma lookup_position name cs s : lookup name cs = Some s -> exists k, position name (map fst cs) = Some k.
Proof.
  induction cs as [|[n t] r IH]; intro H; [discriminate|]. cbn [map position fst lookup] in *.
  destruct (String.eqb name n); [eauto|]. destruct (IH H) as [k ->]. eauto.
Qed.
Lemma col_mk_ti name idx cs s : lookup name cs = Some s -> (length idx <= length s)%nat ->
  col name (mk_ti idx cs) = firstn (length idx) s.
Proof.
  intros L H. destruct (lookup_position _ _ _ L) as [k P].
  unfold col. cbn [cols mk_ti]. rewrite P.
  destruct (position_lookup _ _ _ P) as (s' & A & B & C). rewrite A in L. injection L as ->.
  cbn [rows mk_ti]. rewrite map_map. cbn [snd].
  rewrite <- nth_map_nth by auto. apply map_ext. intros it.
  etransitivity; [apply (nth_map (fun c : string * series => nth (fst it) (snd c) NaN) (EmptyString, [] : series)); exact C|].
  exact (f_equal (fun c : string * series => nth (fst it) (snd c) NaN) B).
Qed.
Lemma col_mk_ti_all name idx cs s : lookup name cs = Some s -> length s = length idx ->
  col name (mk_ti idx cs) = s.
Proof. intros L H. rewrite (col_mk_ti _ _ _ _ L) by lia. apply firstn_all2. lia. Qed.

Lemma mk_ti_prefix n idx cs :
  mk_ti (firstn n idx) (map (fun c => (fst c, firstn n (snd c))) cs) = fprefix n (mk_ti idx cs).
Proof.
  unfold mk_ti, fprefix. cbn [cols rows]. f_equal.
  - rewrite map_map. reflexivity.
  - rewrite <- map_firstn, <- combine_firstn_r, <- seq_firstn.
    apply map_ext_in. intros [i t] H. cbn [fst snd]. f_equal. rewrite map_map. cbn [snd].
    apply map_ext. intros c. apply nth_firstn.
    apply in_combine_l in H. apply in_seq in H. rewrite firstn_length in H. lia.
Qed.

(** ** filling a prefix *)
Lemma present_app_cons s : isnan (hd NaN s) = false -> s <> [] -> exists x r, s = x :: r /\ isnan x = false.
Proof. destruct s; [congruence|]. cbn. eauto. Qed.
Lemma nearest_firstn n s i : isnan (nth 0 s NaN) = false -> (i < n)%nat ->
  nearest (firstn n s) i = nearest s i.
Proof.
  intros H L. unfold nearest. rewrite firstn_min. replace (Nat.min (S i) n) with (S i) by lia.
  destruct s as [|x r]; [rewrite !firstn_nil, !skipn_nil; reflexivity|]. cbn [nth] in H.
  cbn [firstn]. rewrite present_cons, H. cbn [rev].
  destruct (rev (present (firstn i r))); reflexivity.
Qed.
Lemma sort_rows_le_sorted (l : list row) : StronglySorted Z.le (map fst l) -> sort_rows l = l.
Proof.
  intro H. apply sort_rows_fix. induction l as [|r l IH]; [constructor|].
  cbn in H. inversion H; subst. constructor; auto. rewrite Forall_map in H3. exact H3.
Qed.
Lemma sort_index_id f : StronglySorted Z.le (index f) -> sort_index f = f.
Proof. intro H. unfold sort_index. rewrite sort_rows_le_sorted by auto. destruct f; reflexivity. Qed.
Lemma fill_col f c : wf f -> StronglySorted Z.le (index f) ->
  col c (fill_missing f) = map (nearest (col c f)) (seq 0 (length (col c f))).
Proof.
  intros W S. destruct (mem c (cols f)) eqn:M.
  - rewrite fill_missing_col by auto. rewrite sort_index_id by auto.
    rewrite len_col by (apply mem_In; auto). reflexivity.
  - assert (N : position c (cols f) = None).
    { apply position_None. intro H. apply mem_In in H. congruence. }
    unfold col. rewrite N. change (cols (fill_missing f)) with (cols f). rewrite N. reflexivity.
Qed.
Lemma wf_fprefix n f : wf f -> wf (fprefix n f).
Proof.
  intros W r H. cbn in *. apply W. rewrite <- (firstn_skipn n (rows f)). apply in_or_app; auto.
Qed.
Lemma sorted_fprefix n f : StronglySorted Z.le (index f) -> StronglySorted Z.le (index (fprefix n f)).
Proof. intro H. rewrite index_fprefix. apply SS_firstn; auto. Qed.
Lemma starts_complete_col f c : wf f -> starts_complete f -> col c f <> [] -> isnan (nth 0 (col c f) NaN) = false.
Proof.
  intros W S N. unfold col, starts_complete in *. destruct (position c (cols f)) as [k|] eqn:P; [|congruence].
  destruct (rows f) as [|r l] eqn:E; [cbn in N; congruence|]. cbn [map nth].
  apply isnan_false. apply S. apply nth_In. apply position_lt in P.
  rewrite (W r); [exact P|rewrite E; left; reflexivity].
Qed.
Lemma fill_col_prefix n f c : wf f -> StronglySorted Z.le (index f) -> starts_complete f ->
  col c (fill_missing (fprefix n f)) = firstn n (col c (fill_missing f)).
Proof.
  intros W S C. rewrite !fill_col by auto using wf_fprefix, sorted_fprefix.
  rewrite col_fprefix. apply seq_map_firstn. intros i Hi Hl. cbn [Nat.add].
  apply nearest_firstn; auto. apply starts_complete_col; auto. intro E. rewrite E in Hl. cbn in Hl. lia.
Qed.

(** ** the calculation of a prefix *)
Definition cut (n : nat) (cs : list (string * series)) := map (fun c => (fst c, firstn n (snd c))) cs.

Lemma ti_cols_prefix o i n f :
  valid i -> wf f -> StronglySorted Z.le (index f) -> looks_ahead i = false ->
  (nested i = true -> starts_complete f) ->
  (match needs i with Some (_, _, k) => (k <= n)%nat | None => True end) ->
  ti_cols o i (fprefix n f) = cut n (ti_cols o i f).
Proof.
  intros V W S LA N K.
  destruct i; try discriminate LA; cbn [ti_cols needs nested] in *;
  try (specialize (N eq_refl));
  rewrite ?col_fprefix, ?fill_col_prefix by auto; unfold cut; cbn [map fst snd];
  rewrite ?bb_middle_firstn, ?bb_upper_firstn, ?bb_lower_firstn, ?cmf_firstn, ?cmo_firstn, ?cci_firstn,
    ?dema_firstn, ?emv_firstn, ?emv_ma_firstn, ?env_upper_firstn, ?env_lower_firstn, ?tsf_firstn, ?fosc_firstn,
    ?ich_tenkan_firstn, ?ich_kijun_firstn, ?ich_senkou_a_firstn, ?ich_senkou_b_firstn, ?imi_firstn, ?ko_firstn,
    ?lri_firstn, ?lrs_firstn, ?mfi_firstn, ?mi_firstn, ?mp_firstn, ?mom_firstn, ?macd_firstn,
    ?macd_signal_firstn, ?obv_firstn, ?prf_firstn, ?pvt_firstn, ?pch_high_firstn, ?pch_low_firstn,
    ?price_osc_firstn, ?prc_firstn, ?qstick_firstn, ?ri_firstn, ?rmi_firstn, ?rsi_firstn, ?rvi_firstn, ?sd_firstn,
    ?smi_firstn, ?so_k_firstn, ?so_d_firstn, ?swi_firstn, ?tema_firstn, ?tp_firstn, ?uo_firstn, ?vhf_firstn,
    ?vch_firstn, ?vosc_firstn, ?vrc_firstn, ?wc_firstn, ?wad_firstn, ?wr_firstn; try reflexivity.
  - rewrite atr_firstn by lia. reflexivity.
  - rewrite plus_dm_firstn, minus_dm_firstn, true_range_nan_firstn, !dmi_di_firstn, dmi_dx_firstn,
      dmi_adx_firstn, dmi_adxr_firstn. unfold sround. rewrite !smap_firstn. reflexivity.
  - destruct t; try (rewrite fill_col_prefix by auto); try (rewrite ma_firstn; reflexivity);
    unfold ma, sround; rewrite ?rolling_firstn, ?ewm_firstn; unfold roll_mean;
    rewrite ?rolling_firstn, ?smap_firstn; reflexivity.
  - unfold nvi. rewrite vi_firstn. reflexivity.
  - rewrite psar_firstn by lia. reflexivity.
  - unfold sround. rewrite repeat_firstn, smap_firstn. reflexivity.
  - unfold pvi. rewrite vi_firstn. reflexivity.
  - unfold pb_upper, pb_lower. rewrite !pb_band_firstn. reflexivity.
  - unfold pb_upper, pb_lower. rewrite !pb_band_firstn, proj_firstn, proj_trigger_firstn. reflexivity.
  - cbn in V. rewrite ws_firstn by lia. reflexivity.
Qed.

Lemma add_col_prefix n name s f : add_col name (firstn n s) (fprefix n f) = fprefix n (add_col name s f).
Proof. unfold add_col, fprefix. cbn. f_equal. rewrite combine_firstn_r, map_firstn. reflexivity. Qed.
Lemma input_after_prefix i n f : input_after i (fprefix n f) = fprefix n (input_after i f).
Proof.
  destruct i; cbn [input_after]; try reflexivity; rewrite col_fprefix, ewm_firstn; apply add_col_prefix.
Qed.
Lemma calc_ok o i f x : calc o i f = Ok x ->
  x = (input_after i f, mk_ti (ti_index i f) (ti_cols o i f)) /\
  match needs i with Some (_, _, k) => (k <= length (rows f))%nat | None => True end.
Proof.
  unfold calc. intro H. apply bind_ok in H as (u & A & B). injection B as <-. split; [reflexivity|].
  destruct (needs i) as [[[a b] k]|]; auto.
  destruct (Nat.ltb_spec (length (rows f)) k); [discriminate|]. auto.
Qed.
Lemma ti_index_prefix i n f : looks_ahead i = false -> ti_index i (fprefix n f) = firstn n (ti_index i f).
Proof. intro H. destruct i; try discriminate H; apply index_fprefix. Qed.

Lemma calc_prefix o i n f inp ti inp' ti' :
  valid i -> wf f -> StronglySorted Z.le (index f) -> looks_ahead i = false ->
  (nested i = true -> starts_complete f) ->
  calc o i f = Ok (inp, ti) -> calc o i (fprefix n f) = Ok (inp', ti') ->
  inp' = fprefix n inp /\ ti' = fprefix n ti.
Proof.
  intros V W S LA N H H'. apply calc_ok in H as [E _]. apply calc_ok in H' as [E' K].
  injection E as -> ->. injection E' as -> ->. split; [apply input_after_prefix|].
  rewrite ti_index_prefix by auto. rewrite ti_cols_prefix; auto.
  - apply mk_ti_prefix.
  - destruct (needs i) as [[[a b] k]|]; auto. rewrite len_rows_fprefix in K. lia.
Qed.
