(** * RepeatApi: values and advices after the same days, in any two places of any two markets. *)
From Coq Require Import ZArith QArith Qcanon Bool List String PeanoNat Lia Sorted Permutation.
From Verif Require Import Num NumFacts RoundFacts Pandas Sim Frame FrameSpec FrameProofs SimSpec SimProofs SimLemmas SimLimit Ind Signal Api IndSpec SeriesFacts Lengths Causal IndFacts Shape ApiSpec ApiCheck ApiProofs ApiLemmas RangeSpec Cells RangeFacts RangeMore Publish RangeApi ValueSpec ValueFacts ValueMore Recur ValueApi.
From Verif Require Import FormulaSpec SignalSpec SignalApi OneWaySpec OneWay OneWayApi QuietSpec QuietSim QuietApi MirrorSims MemorySpec MemoryFacts MemoryApi RecentSpec RecentSig RepeatSpec.
Import ListNotations.
Open Scope list_scope. Open Scope string_scope.
Notation price := SignalSpec.price.

(** ** the calculation of a prefix, however short *)
Lemma short_prefix o i n f : valid i -> looks_ahead i = false -> i <> iATR -> i <> iPSAR ->
  (nested i = true -> forall c, In c (required i) -> col c (fill_missing (fprefix n f)) = firstn n (col c (fill_missing f))) ->
  ti_cols o i (fprefix n f) = cut n (ti_cols o i f).
Proof.
  intros V LA NA NP N.
  destruct i; try discriminate LA; try (exfalso; apply NA; reflexivity); try (exfalso; apply NP; reflexivity); clear NA NP; cbn [ti_cols nested required] in *;
  try (specialize (N eq_refl));
  rewrite ?col_fprefix; try (rewrite !N by (cbn; auto)); unfold cut; cbn [map fst snd];
  rewrite ?bb_middle_firstn, ?bb_upper_firstn, ?bb_lower_firstn, ?cmf_firstn, ?cmo_firstn, ?cci_firstn,
    ?dema_firstn, ?emv_firstn, ?emv_ma_firstn, ?env_upper_firstn, ?env_lower_firstn, ?tsf_firstn, ?fosc_firstn,
    ?ich_tenkan_firstn, ?ich_kijun_firstn, ?ich_senkou_a_firstn, ?ich_senkou_b_firstn, ?imi_firstn, ?ko_firstn,
    ?lri_firstn, ?lrs_firstn, ?mfi_firstn, ?mi_firstn, ?mp_firstn, ?mom_firstn, ?macd_firstn,
    ?macd_signal_firstn, ?obv_firstn, ?prf_firstn, ?pvt_firstn, ?pch_high_firstn, ?pch_low_firstn,
    ?price_osc_firstn, ?prc_firstn, ?qstick_firstn, ?ri_firstn, ?rmi_firstn, ?rsi_firstn, ?rvi_firstn, ?sd_firstn,
    ?smi_firstn, ?so_k_firstn, ?so_d_firstn, ?swi_firstn, ?tema_firstn, ?tp_firstn, ?uo_firstn, ?vhf_firstn,
    ?vch_firstn, ?vosc_firstn, ?vrc_firstn, ?wc_firstn, ?wad_firstn, ?wr_firstn; try reflexivity.
  - rewrite plus_dm_firstn, minus_dm_firstn, true_range_nan_firstn, !dmi_di_firstn, dmi_dx_firstn,
      dmi_adx_firstn, dmi_adxr_firstn. unfold sround. rewrite !smap_firstn. reflexivity.
  - destruct t; try (rewrite (N eq_refl) by (cbn; auto)); try (rewrite ma_firstn; reflexivity);
    unfold ma, sround; rewrite ?rolling_firstn, ?ewm_firstn; unfold roll_mean;
    rewrite ?rolling_firstn, ?smap_firstn; reflexivity.
  - unfold nvi. rewrite vi_firstn. reflexivity.
  - unfold sround. rewrite repeat_firstn, smap_firstn. reflexivity.
  - unfold pvi. rewrite vi_firstn. reflexivity.
  - unfold pb_upper, pb_lower. rewrite !pb_band_firstn. reflexivity.
  - unfold pb_upper, pb_lower. rewrite !pb_band_firstn, proj_firstn, proj_trigger_firstn. reflexivity.
  - cbn in V. rewrite ws_firstn by lia. reflexivity.
Qed.
Lemma lookup_cut n name cs s : lookup name cs = Some s -> lookup name (cut n cs) = Some (firstn n s).
Proof.
  induction cs as [|[x u] r IH]; [discriminate|]. unfold cut. cbn [lookup map fst snd]. destruct (String.eqb name x); [intro E; injection E as <-; reflexivity|exact IH].
Qed.
Lemma full_col g c : wf g -> StronglySorted Z.le (index g) -> (forall j, (j < List.length (col c g))%nat -> isnan (nth j (col c g) NaN) = false) -> col c (fill_missing g) = col c g.
Proof.
  intros W S0 H. rewrite (fill_col g c W S0). apply nth_ext with (d := NaN) (d' := NaN); [rewrite map_length, seq_length; reflexivity|].
  intros k L. rewrite map_length, seq_length in L. rewrite nth_map_seq by auto. apply nearest_present; auto.
Qed.

(** ** one window of one market *)
Section Window.
  Variables (o : oracle) (i : ind) (f w : frame) (k n : nat).
  Hypothesis VI : valid i. Hypothesis WF : wf f. Hypothesis SF : StronglySorted Z.le (index f). Hypothesis WW : wf w. Hypothesis SW : StronglySorted Z.le (index w).
  Hypothesis LA : looks_ahead i = false. Hypothesis NK : (n <= k)%nat.
  Hypothesis CO : nested i = true -> forall c j, In c (required i) -> (j < List.length (col c f))%nat -> isnan (nth j (col c f) NaN) = false.
  Hypothesis LC : forall c, In c (required i) -> (k < List.length (col c f))%nat /\ List.length (col c w) = S n.
  Hypothesis SA : forall c j, In c (required i) -> (j <= n)%nat -> nth (n - j) (col c w) NaN = nth (k - j) (col c f) NaN.
  Lemma window_tail c : In c (required i) -> tailed (k - n) 0 (firstn (S k) (col c f)) (col c w).
  Proof.
    intro I. destruct (LC c I) as [L1 L2]. apply T_cells with (x := NaN); [rewrite firstn_length; lia|]. intros j _ J. rewrite L2 in J.
    rewrite nth_firstn by lia. pose proof (SA c (n - j) I ltac:(lia)) as X. replace (n - (n - j))%nat with j in X by lia. replace (k - (n - j))%nat with (k - n + j)%nat in X by lia. exact X.
  Qed.
  Lemma window_full c : nested i = true -> In c (required i) -> col c (fill_missing (fprefix (S k) f)) = firstn (S k) (col c f) /\ col c (fill_missing f) = col c f /\ col c (fill_missing w) = col c w.
  Proof.
    intros NE I. pose proof (fun j => CO NE c j I) as F. destruct (LC c I) as [L1 L2]. split; [|split].
    - rewrite full_col; [apply col_fprefix|apply wf_fprefix, WF|apply sorted_fprefix, SF|]. rewrite col_fprefix, firstn_length. intros j J. rewrite nth_firstn by lia. apply F. lia.
    - apply full_col; assumption.
    - apply full_col; [assumption|assumption|]. rewrite L2. intros j J. pose proof (SA c (n - j) I ltac:(lia)) as X. replace (n - (n - j))%nat with j in X by lia. rewrite X. apply F. lia.
  Qed.
  Lemma window_value name m s s' : lookback i name = Some m -> (m <= n)%nat -> lookup name (ti_cols o i f) = Some s -> lookup name (ti_cols o i w) = Some s' -> nth k s NaN = nth n s' NaN.
  Proof.
    intros LB MN L L'.
    assert (P : ti_cols o i (fprefix (S k) f) = cut (S k) (ti_cols o i f)).
    { apply short_prefix; [exact VI|exact LA|intros ->; discriminate LB|intros ->; discriminate LB|]. intros NE c I. destruct (window_full c NE I) as (A & B & _). rewrite A, B. reflexivity. }
    pose proof (lookup_cut (S k) _ _ _ L) as L1. rewrite <- P in L1.
    assert (T : tailed (k - n) m (firstn (S k) s) s').
    { eapply (two_cells o (k - n) i (fprefix (S k) f) w name); eauto.
      - intros c I. rewrite col_fprefix. apply window_tail, I.
      - intros NE c I. destruct (window_full c NE I) as (A & _ & B). rewrite A, B. apply window_tail, I. }
    pose proof (T_nth _ _ _ _ n NaN T MN) as X. rewrite nth_firstn in X by lia. replace (k - n + n)%nat with k in X by lia. congruence.
  Qed.
End Window.

(** ** the same days in two places *)
Section Again.
  Variables (o : oracle) (c : ctor) (raw raw' : rawframe) (b b' : bool) (ob ob' : obj) (k k' n : nat).
  Hypothesis W : wf_raw raw. Hypothesis W' : wf_raw raw'.
  Hypothesis H : snd (construct o c (RFrame raw) (VBool b)) = Ok ob.
  Hypothesis H' : snd (construct o c (RFrame raw') (VBool b')) = Ok ob'.
  Hypothesis G : nested (asked c) = true -> gapless (required (asked c)) raw /\ gapless (required (asked c)) raw'.
  Hypothesis K : (k < days_given ob)%nat. Hypothesis K' : (k' < days_given ob')%nat.
  Hypothesis LA : looks_ahead (asked c) = false.

  Lemma again_cells g raw0 b0 ob0 : wf_raw raw0 -> view o (asked c) raw0 b0 ob0 g -> gapless (required (asked c)) raw0 -> forall x j, In x (required (asked c)) -> (j < List.length (col x g))%nat -> isnan (nth j (col x g) NaN) = false.
  Proof.
    intros W0 V0 G0 x j I L. rewrite (view_length V0) in L by exact I.
    destruct (validated_row _ _ _ _ W0 (v_val _ _ _ _ _ _ V0) (gapless_unfilled _ b0 _ G0) j L) as (r & R & C). rewrite C by exact I.
    specialize (G0 x r I R). destruct (raw_cell _ _ _); auto. congruence.
  Qed.
  Lemma again_shown name m : same_days n ob k ob' k' -> In name (ti_names (asked c)) -> lookback (asked c) name = Some m -> (m <= n)%nat -> (n <= k)%nat -> (n <= k')%nat ->
    shown name ob' k' = shown name ob k.
  Proof.
    intros SM I LB M NK NK'. destruct (construct_view _ _ _ _ _ W H) as (f & V). destruct (construct_view _ _ _ _ _ W' H') as (f' & V').
    pose proof (v_ind _ _ _ _ _ _ V) as EI. unfold same_days in SM. rewrite EI in SM.
    pose proof (v_good _ _ _ _ _ _ V) as (G1 & G2 & G3). pose proof (v_good _ _ _ _ _ _ V') as (G1' & G2' & G3').
    rewrite (view_days V) in K. rewrite (view_days V') in K'.
    set (w := mkFrame (cols f) (skipn (k - n) (firstn (S k) (rows f)))).
    assert (CW : forall x, col x w = skipn (k - n) (firstn (S k) (col x f))).
    { intro x. rewrite <- col_fprefix. unfold w, col, fprefix. cbn [cols rows]. destruct (position x (cols f)); [|destruct (k - n)%nat; reflexivity]. rewrite skipn_map. reflexivity. }
    assert (WW : wf w).
    { intros r R. unfold w in R |- *. cbn [rows cols] in *. apply G2. rewrite <- (firstn_skipn (S k) (rows f)). apply in_or_app. left. rewrite <- (firstn_skipn (k - n) (firstn (S k) (rows f))). apply in_or_app. right. exact R. }
    assert (SW : StronglySorted Z.le (index w)).
    { unfold w, index. cbn [rows]. rewrite <- skipn_map, <- firstn_map. fold (index f). pose proof (SS_firstn (index f) (S k) G3) as Q.
      rewrite <- (firstn_skipn (k - n) (firstn (S k) (index f))) in Q. clear - Q. induction (firstn (k - n) (firstn (S k) (index f))) as [|a l IH]; [exact Q|]. cbn in Q. inversion Q; subst. auto. }
    assert (LX : forall x, In x (required (asked c)) -> (k < List.length (col x f))%nat /\ List.length (col x w) = S n).
    { intros x J. rewrite CW, skipn_length, firstn_length, (view_length V x J). unfold row in *. lia. }
    assert (LX' : forall x, In x (required (asked c)) -> (k' < List.length (col x f'))%nat /\ List.length (col x w) = S n).
    { intros x J. rewrite (view_length V' x J). split; [unfold row in *; lia|apply LX, J]. }
    assert (SA : forall x j, In x (required (asked c)) -> (j <= n)%nat -> nth (n - j) (col x w) NaN = nth (k - j) (col x f) NaN).
    { intros x j J L. rewrite CW, nth_skipn, nth_firstn by lia. f_equal. lia. }
    assert (SA' : forall x j, In x (required (asked c)) -> (j <= n)%nat -> nth (n - j) (col x w) NaN = nth (k' - j) (col x f') NaN).
    { intros x j J L. rewrite SA by auto. rewrite <- (view_given V' x _ J), <- (view_given V x _ J). symmetry. apply SM; auto. }
    assert (IN : forall g, In name (map fst (ti_cols o (asked c) g))) by (intro g; replace (map fst (ti_cols o (asked c) g)) with (ti_names (asked c)); [exact I|destruct (asked c); reflexivity]).
    destruct (lookup_names _ _ _ _ (IN f)) as [s L]. destruct (lookup_names _ _ _ _ (IN f')) as [s' L']. destruct (lookup_names _ _ _ _ (IN w)) as [sw LW].
    assert (D : is_dpo (asked c) = false) by (destruct (asked c); try reflexivity; discriminate LA).
    unfold shown, cell_at. rewrite (v_col _ _ _ _ _ _ V D _ _ L), (v_col _ _ _ _ _ _ V' D _ _ L').
    transitivity (nth n sw NaN); [|symmetry].
    - apply (window_value o (asked c) f' w k' n (v_valid _ _ _ _ _ _ V') G2' G3' WW SW LA NK') with (name := name) (m := m); auto. intros NE x j J. apply (again_cells f' raw' b' ob'); auto. apply G, NE.
    - apply (window_value o (asked c) f w k n (v_valid _ _ _ _ _ _ V) G2 G3 WW SW LA NK) with (name := name) (m := m); auto. intros NE x j J. apply (again_cells f raw b ob); auto. apply G, NE.
  Qed.
End Again.

Section AgainSig.
  Variables (o : oracle) (c : ctor) (raw raw' : rawframe) (b b' : bool) (ob ob' : obj) (k k' n : nat).
  Hypothesis W : wf_raw raw. Hypothesis W' : wf_raw raw'. Hypothesis N : NoDup (dates raw). Hypothesis N' : NoDup (dates raw').
  Hypothesis H : snd (construct o c (RFrame raw) (VBool b)) = Ok ob.
  Hypothesis H' : snd (construct o c (RFrame raw') (VBool b')) = Ok ob'.
  Hypothesis G : nested (asked c) = true -> gapless (required (asked c)) raw /\ gapless (required (asked c)) raw'.
  Hypothesis K : (k < days_given ob)%nat. Hypothesis K' : (k' < days_given ob')%nat. Hypothesis NK : (n <= k)%nat. Hypothesis NK' : (n <= k')%nat.
  Hypothesis RE : advice_reach (asked c) = Some n. Hypothesis SM : same_days n ob k ob' k'.

  Lemma again_ind : ob_ind ob = asked c /\ ob_ind ob' = asked c /\ looks_ahead (asked c) = false /\ is_dpo (asked c) = false.
  Proof. split; [exact (ind_asked o raw b ob W c H)|]. split; [exact (ind_asked o raw' b' ob' W' c H')|]. clear - RE. destruct (asked c); try discriminate RE; split; reflexivity. Qed.
  Lemma again_ago name m e : In name (ti_names (asked c)) -> lookback (asked c) name = Some m -> (1 <= e)%nat -> (m + e <= S n)%nat -> shown name ob' (S k' - e) = shown name ob (S k - e).
  Proof.
    intros I L E M. destruct again_ind as (E1 & E2 & LA & D).
    apply (again_shown o c raw raw' b b' ob ob' (S k - e) (S k' - e) (S n - e) W W' H H' G) with (m := m); auto; try lia.
    intros x j X J. replace (S k' - e - j)%nat with (k' - (e - 1 + j))%nat by lia. replace (S k - e - j)%nat with (k - (e - 1 + j))%nat by lia. apply SM; [exact X|lia].
  Qed.
  Lemma again_signal : get_ti_signal (limited k' ob') = get_ti_signal (limited k ob).
  Proof.
    destruct again_ind as (E1 & E2 & LA & D). assert (D1 : is_dpo (ob_ind ob) = false) by (rewrite E1; exact D). assert (D2 : is_dpo (ob_ind ob') = false) by (rewrite E2; exact D).
    pose proof (limited_shown o c raw b ob k W N H D1 K) as DS. pose proof (limited_shown o c _ b' ob' k' W' N' H' D2 K') as DS'.
    apply (recent_signal o c raw raw' b b' (limited k ob) (limited k' ob') k k' n (lim_working o raw b ob W c _ H) (lim_working o _ b' ob' W' c _ H') DS DS' NK RE NK').
    - intros name m e I L E M. unfold ago. rewrite DS, DS'.
      rewrite (limited_cell o c _ b' ob' k' name (S k' - e) W' N' H' D2 K' ltac:(lia)), (limited_cell o c raw b ob k name (S k - e) W N H D1 K ltac:(lia)).
      apply again_ago with (m := m); auto.
    - intros I e E. unfold SignalSpec.price. destruct (limited_days o c raw b ob k W N H K) as [DG GV]. destruct (limited_days o c _ b' ob' k' W' N' H' K') as [DG' GV'].
      rewrite DG, DG', GV, GV' by lia. replace (S k' - e)%nat with (k' - (e - 1))%nat by lia. replace (S k - e)%nat with (k - (e - 1))%nat by lia. apply SM; [rewrite E1; exact I|lia].
  Qed.
  Lemma again_runs cv cv' me me' fa fa' s s' ss ss' : snd (get_ti_simulation ob cv me fa) = Ok (s, ss) -> snd (get_ti_simulation ob' cv' me' fa') = Ok (s', ss') ->
    x_signal (row_ (data s') k') = x_signal (row_ (data s) k).
  Proof.
    intros R R'. destruct again_ind as (E1 & E2 & LA & D). assert (D1 : is_dpo (ob_ind ob) = false) by (rewrite E1; exact D). assert (D2 : is_dpo (ob_ind ob') = false) by (rewrite E2; exact D).
    pose proof (construct_sound _ _ _ _ _ W H) as SO. pose proof (construct_sound _ _ _ _ _ W' H') as SO'.
    destruct (simulation_inv _ _ _ _ _ _ SO R) as (ps & m0 & x & a & A & -> & L & _ & P). destruct (simulation_inv _ _ _ _ _ _ SO' R') as (ps' & m0' & x' & a' & A' & -> & L' & _ & P').
    assert (LT : List.length (rows (ob_ti ob)) = days_given ob) by (rewrite ti_shorter by (auto using not_dpo); unfold days_given; apply len_index).
    assert (LT' : List.length (rows (ob_ti ob')) = days_given ob') by (rewrite ti_shorter by (auto using not_dpo); unfold days_given; apply len_index).
    assert (LC : List.length ps = days_given ob) by (rewrite (start_len _ _ _ _ _ _ _ A); unfold days_given; apply len_index).
    assert (LC' : List.length ps' = days_given ob') by (rewrite (start_len _ _ _ _ _ _ _ A'); unfold days_given; apply len_index).
    destruct (simulate_rows ps m0 x a k ltac:(lia) ltac:(lia)) as (Y & _). destruct (simulate_rows ps' m0' x' a' k' ltac:(lia) ltac:(lia)) as (Y' & _).
    unfold row_ in *. rewrite Y, Y'. pose proof again_signal as Q. rewrite (P k ltac:(lia)), (P' k' ltac:(lia)) in Q. congruence.
  Qed.
End AgainSig.

(** ** a market that repeats itself *)
Lemma repeats_often p ob c j t : repeats p ob -> In c (required (ob_ind ob)) -> (j + t * p < days_given ob)%nat -> given c ob (j + t * p) = given c ob j.
Proof.
  intros R I. induction t as [|t IH]; cbn [Nat.mul]; intro L; [f_equal; lia|].
  replace (j + (p + t * p))%nat with (j + t * p + p)%nat in * by lia. rewrite R by (auto; lia). apply IH. lia.
Qed.
Lemma repeats_same p ob t n k : repeats p ob -> (n <= k)%nat -> (k + t * p < days_given ob)%nat -> same_days n ob k ob (k + t * p).
Proof. intros R NK L c j I J. replace (k + t * p - j)%nat with (k - j + t * p)%nat by lia. apply repeats_often; auto. lia. Qed.
Section Cycle.
  Variables (o : oracle) (c : ctor) (raw : rawframe) (b : bool) (ob : obj) (p t k : nat).
  Hypothesis W : wf_raw raw.
  Hypothesis H : snd (construct o c (RFrame raw) (VBool b)) = Ok ob.
  Hypothesis G : nested (asked c) = true -> gapless (required (asked c)) raw.
  Hypothesis R : repeats p ob. Hypothesis K : (k + t * p < days_given ob)%nat.
  Lemma cycle_shown name m : looks_ahead (asked c) = false -> In name (ti_names (asked c)) -> lookback (asked c) name = Some m -> (m <= k)%nat -> shown name ob (k + t * p) = shown name ob k.
  Proof.
    intros LA I L M. apply (again_shown o c raw raw b b ob ob k (k + t * p) m W W H H) with (m := m); auto; try lia. apply repeats_same; auto.
  Qed.
  Lemma cycle_signal n : NoDup (dates raw) -> advice_reach (asked c) = Some n -> (n <= k)%nat -> get_ti_signal (limited (k + t * p) ob) = get_ti_signal (limited k ob).
  Proof.
    intros N RE NK. apply (again_signal o c raw raw b b ob ob k (k + t * p) n); auto; try lia. apply repeats_same; auto.
  Qed.
  Lemma cycle_runs n cv me fa s ss : NoDup (dates raw) -> advice_reach (asked c) = Some n -> (n <= k)%nat -> snd (get_ti_simulation ob cv me fa) = Ok (s, ss) ->
    x_signal (row_ (data s) (k + t * p)) = x_signal (row_ (data s) k).
  Proof.
    intros N RE NK E. apply (again_runs o c raw raw b b ob ob k (k + t * p) n) with (cv := cv) (cv' := cv) (me := me) (me' := me) (fa := fa) (fa' := fa) (ss := ss) (ss' := ss); auto; try lia. apply repeats_same; auto.
  Qed.
End Cycle.

(** ** in the words of the statements *)
Lemma window_only i name m : lookback i name = Some m -> is_dpo i = false -> looks_ahead i = false.
Proof. destruct i; try reflexivity; cbn; intros; discriminate. Qed.
Lemma same_days_values o c raw raw' b b' ob ob' k k' n name m : wf_raw raw -> wf_raw raw' ->
  snd (construct o c (RFrame raw) (VBool b)) = Ok ob -> snd (construct o c (RFrame raw') (VBool b')) = Ok ob' ->
  (nested (ob_ind ob) = true -> gapless (required (ob_ind ob)) raw /\ gapless (required (ob_ind ob)) raw') -> is_dpo (ob_ind ob) = false ->
  same_days n ob k ob' k' -> (n <= k < days_given ob)%nat -> (n <= k' < days_given ob')%nat ->
  In name (cols (get_ti_data ob)) -> lookback (ob_ind ob) name = Some m -> (m <= n)%nat -> shown name ob' k' = shown name ob k.
Proof.
  intros W W' H H' G D SM [NK K] [NK' K'] I L M. pose proof (ind_asked o raw b ob W c H) as E. destruct (construct_sound _ _ _ _ _ W H) as (X & _). unfold get_ti_data in I. rewrite X in I. rewrite E in *.
  apply (again_shown o c raw raw' b b' ob ob' k k' n) with (m := m); auto. exact (window_only _ _ _ L D).
Qed.
Lemma same_days_advice o c raw raw' b b' ob ob' k k' n : wf_raw raw -> wf_raw raw' -> NoDup (dates raw) -> NoDup (dates raw') ->
  snd (construct o c (RFrame raw) (VBool b)) = Ok ob -> snd (construct o c (RFrame raw') (VBool b')) = Ok ob' ->
  (nested (asked c) = true -> gapless (required (asked c)) raw /\ gapless (required (asked c)) raw') ->
  advice_reach (asked c) = Some n -> same_days n ob k ob' k' -> (n <= k < days_given ob)%nat -> (n <= k' < days_given ob')%nat ->
  get_ti_signal (limited k' ob') = get_ti_signal (limited k ob).
Proof. intros W W' N N' H H' G RE SM [NK K] [NK' K']. apply (again_signal o c raw raw' b b' ob ob' k k' n); auto. Qed.
Lemma same_days_runs o c raw raw' b b' ob ob' k k' n cv cv' me me' fa fa' st st' sts sts' : wf_raw raw -> wf_raw raw' -> NoDup (dates raw) -> NoDup (dates raw') ->
  snd (construct o c (RFrame raw) (VBool b)) = Ok ob -> snd (construct o c (RFrame raw') (VBool b')) = Ok ob' ->
  (nested (asked c) = true -> gapless (required (asked c)) raw /\ gapless (required (asked c)) raw') ->
  advice_reach (asked c) = Some n -> same_days n ob k ob' k' -> (n <= k < days_given ob)%nat -> (n <= k' < days_given ob')%nat ->
  snd (get_ti_simulation ob cv me fa) = Ok (st, sts) -> snd (get_ti_simulation ob' cv' me' fa') = Ok (st', sts') ->
  x_signal (row_ (data st') k') = x_signal (row_ (data st) k).
Proof. intros W W' N N' H H' G RE SM [NK K] [NK' K'] R R'. exact (again_runs o c raw raw' b b' ob ob' k k' n W W' N N' H H' G K K' NK NK' RE SM cv cv' me me' fa fa' st st' sts sts' R R'). Qed.
Lemma cycle_of_values o c raw b ob p t k name m : wf_raw raw -> snd (construct o c (RFrame raw) (VBool b)) = Ok ob ->
  (nested (ob_ind ob) = true -> gapless (required (ob_ind ob)) raw) -> is_dpo (ob_ind ob) = false -> repeats p ob ->
  In name (cols (get_ti_data ob)) -> lookback (ob_ind ob) name = Some m -> (m <= k)%nat -> (k + t * p < days_given ob)%nat -> shown name ob (k + t * p) = shown name ob k.
Proof.
  intros W H G D R I L M K. pose proof (ind_asked o raw b ob W c H) as E. destruct (construct_sound _ _ _ _ _ W H) as (X & _). unfold get_ti_data in I. rewrite X in I. rewrite E in *.
  apply (cycle_shown o c raw b ob p t k W H G R K name m); auto. exact (window_only _ _ _ L D).
Qed.
Lemma cycle_of_advice o c raw b ob p t k n : wf_raw raw -> NoDup (dates raw) -> snd (construct o c (RFrame raw) (VBool b)) = Ok ob ->
  (nested (asked c) = true -> gapless (required (asked c)) raw) -> repeats p ob ->
  advice_reach (asked c) = Some n -> (n <= k)%nat -> (k + t * p < days_given ob)%nat -> get_ti_signal (limited (k + t * p) ob) = get_ti_signal (limited k ob).
Proof. intros W N H G R RE NK K. exact (cycle_signal o c raw b ob p t k W H G R K n N RE NK). Qed.
