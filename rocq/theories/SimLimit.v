(** * SimLimit: what the limit and the exposure factor change in a simulation. *)
From Coq Require Import ZArith QArith Qcanon Bool List PeanoNat Lia.
From Verif Require Import Num NumFacts Pandas Frame Sim SimSpec SimProofs SimLemmas.
Import ListNotations.
Open Scope Qc_scope.

(** two rows that differ in the exposure at most *)
Definition same_but_exposure (r r' : simrow) : Prop :=
  x_signal r' = x_signal r /\ x_action r' = x_action r /\ x_stock r' = x_stock r /\
  x_portfolio_value r' = x_portfolio_value r /\ x_earnings r' = x_earnings r /\ x_balance r' = x_balance r.
(** what the short positions open on day i were sold for *)
Definition sold_short (d : list simrow) (i : nat) : Qc :=
  sum_days (S i) (fun j => if still_open d j i && match act d j with AShort => true | _ => false end then price d j else 0).
(** limit m' lets pass whatever m lets pass *)
Definition looser (m m' : option num) : Prop := forall x, fits m x = true -> fits m' x = true.
(** the signal of day j was to buy or sell and was not followed *)
Definition ignored_on (d : list simrow) (j : nat) : bool :=
  match x_signal (row_ d j), x_action (row_ d j) with Some Hold, _ => false | Some _, Some ANone => true | _, _ => false end.

Lemma forallb_ext_on {A} (p q : A -> bool) l : (forall a, In a l -> p a = q a) -> forallb p l = forallb q l.
Proof. induction l as [|a l IH]; intro H; cbn; [reflexivity|]. rewrite H by (left; reflexivity). f_equal. apply IH. intros b B. apply H. right. exact B. Qed.
(** ** the words of SimSpec.v depend on the actions and prices only *)
Section Ext.
Variables (d d' : list simrow) (i : nat).
Hypothesis E : forall j, (j <= i)%nat -> act d' j = act d j /\ price d' j = price d j.
Lemma profitable_ext j k : (j <= i)%nat -> (k <= i)%nat -> profitable d' j k = profitable d j k.
Proof. intros J K. unfold profitable. destruct (E j J) as [-> ->]. destruct (E k K) as [_ ->]. reflexivity. Qed.
Lemma still_open_ext j k : (k <= i)%nat -> still_open d' j k = still_open d j k.
Proof.
  intro K. unfold still_open. destruct (Nat.leb_spec j k) as [L|L]; [|rewrite !andb_false_r; reflexivity].
  destruct (E j ltac:(lia)) as [-> _]. f_equal. apply forallb_ext_on. intros a Ha. apply in_seq in Ha. rewrite profitable_ext by lia. reflexivity.
Qed.
Lemma closed_on_ext j k : (k <= i)%nat -> closed_on d' j k = closed_on d j k.
Proof.
  intro K. unfold closed_on. destruct (Nat.ltb_spec j k) as [L|L]; [|reflexivity]. rewrite still_open_ext, profitable_ext by lia. reflexivity.
Qed.
Lemma profit_ext j k : (j <= i)%nat -> (k <= i)%nat -> profit d' j k = profit d j k.
Proof. intros J K. unfold profit. destruct (E j J) as [-> ->]. destruct (E k K) as [_ ->]. reflexivity. Qed.
Lemma earnings_ext : spec_earnings d' i = spec_earnings d i.
Proof. apply sum_days_ext. intros k K. apply sum_days_ext. intros j J. rewrite closed_on_ext, profit_ext by lia. reflexivity. Qed.
Lemma longs_ext : open_longs d' i = open_longs d i.
Proof. apply count_days_ext. intros j J. rewrite still_open_ext by lia. destruct (E j ltac:(lia)) as [-> _]. reflexivity. Qed.
Lemma shorts_ext : open_shorts d' i = open_shorts d i.
Proof. apply count_days_ext. intros j J. rewrite still_open_ext by lia. destruct (E j ltac:(lia)) as [-> _]. reflexivity. Qed.
End Ext.
Lemma exposure_factor f f' d d' n i : (forall j, (j <= i)%nat -> act d' j = act d j /\ price d' j = price d j) -> (n <= S i)%nat ->
  spec_exposure_before f' d' n i = spec_exposure_before f d n i +
    (f' - f) * sum_days n (fun j => if still_open d j i && match act d j with AShort => true | _ => false end then price d j else 0).
Proof.
  intros E N. unfold spec_exposure_before. induction n as [|n IH]; [unfold sum_days; cbn; ring|]. rewrite !sum_days_S, IH by lia.
  rewrite (still_open_ext d d' i E) by lia. unfold opened_exposure. destruct (E n ltac:(lia)) as [-> ->]. destruct (still_open d n i), (act d n); cbn [andb]; ring.
Qed.
Lemma exposure_same f d d' n i : (forall j, (j < n)%nat -> act d' j = act d j) -> (forall j, (j <= i)%nat -> price d' j = price d j) -> (n <= S i)%nat ->
  spec_exposure_before f d' n i = spec_exposure_before f d n i.
Proof.
  intros A P N. apply sum_days_ext. intros j J. unfold still_open, opened_exposure. rewrite (A j J), (P j) by lia.
  assert (F : forallb (fun k => negb (profitable d' j k)) (seq (S j) (i - j)) = forallb (fun k => negb (profitable d j k)) (seq (S j) (i - j))).
  { apply forallb_ext_on. intros k K. apply in_seq in K. unfold profitable. rewrite (A j J), (P j), (P k) by lia. reflexivity. }
  rewrite F. reflexivity.
Qed.

Section Two.
Variables (ps : list Qc) (m m' : option num) (f f' : Qc) (sgs : list signal).
Hypothesis F1 : 1 <= f.
Hypothesis F1' : 1 <= f'.
Hypothesis L : (length sgs <= length ps)%nat.
Notation d := (data (simulate (map Fin ps) m (Fin f) sgs)).
Notation d' := (data (simulate (map Fin ps) m' (Fin f') sgs)).
Notation n := (length sgs).

Lemma acts_of j : (j < n)%nat -> x_action (row_ d' j) = x_action (row_ d j) -> act d' j = act d j.
Proof. intros _ H. unfold act. rewrite H. reflexivity. Qed.
Lemma prices_same j : (j < n)%nat -> price d' j = price d j.
Proof. intro J. rewrite !sp_price by auto. reflexivity. Qed.
Lemma trades_decide i : (i < n)%nat -> (forall j, (j <= i)%nat -> x_action (row_ d' j) = x_action (row_ d j)) ->
  same_but_exposure (row_ d i) (row_ d' i) /\ x_exposure (row_ d' i) = nadd (x_exposure (row_ d i)) (Fin ((f' - f) * sold_short d i)).
Proof.
  intros I A. assert (E : forall j, (j <= i)%nat -> act d' j = act d j /\ price d' j = price d j).
  { intros j J. split; [apply acts_of; [lia|auto]|apply prices_same; lia]. }
  assert (PV : x_portfolio_value (row_ d' i) = x_portfolio_value (row_ d i)).
  { rewrite !sp_pv by auto. rewrite (longs_ext d d' i E), (shorts_ext d d' i E), prices_same by auto. reflexivity. }
  assert (EA : x_earnings (row_ d' i) = x_earnings (row_ d i)).
  { rewrite !sp_earnings by auto. rewrite (earnings_ext d d' i E). reflexivity. }
  split.
  - split; [rewrite !sp_signal by auto; reflexivity|]. split; [apply A; lia|]. split; [rewrite !sp_stock by auto; reflexivity|]. split; [exact PV|]. split; [exact EA|].
    rewrite !sp_balance by auto. rewrite PV, EA. reflexivity.
  - rewrite !sp_exposure by auto. cbn [nadd]. f_equal. unfold spec_exposure. apply exposure_factor; auto.
Qed.
(** the slots *)
Lemma slots_decide j : (j < n)%nat -> (forall i, (i < n)%nat -> x_action (row_ d' i) = x_action (row_ d i)) ->
  let s := nth j (portfolio (simulate (map Fin ps) m (Fin f) sgs)) slot0 in let s' := nth j (portfolio (simulate (map Fin ps) m' (Fin f') sgs)) slot0 in
  s_pos s' = s_pos s /\ s_status s' = s_status s.
Proof.
  intros J A. cbv zeta. rewrite !sp_slot by auto. assert (E : forall k, (k <= n - 1)%nat -> act d' k = act d k /\ price d' k = price d k).
  { intros k K. split; [apply acts_of; [lia|apply A; lia]|apply prices_same; lia]. }
  unfold slot_of. destruct (E j ltac:(lia)) as [-> _]. rewrite (still_open_ext d d' (n - 1) E) by lia. destruct (act d j); auto.
Qed.
(** the statistics *)
Lemma stats_decide : (forall i, (i < n)%nat -> x_action (row_ d' i) = x_action (row_ d i)) ->
  let s := statistics (simulate (map Fin ps) m (Fin f) sgs) in let s' := statistics (simulate (map Fin ps) m' (Fin f') sgs) in
  s' = mkStats (number_of_trading_days s) (number_of_buy_signals s) (number_of_ignored_buy_signals s) (number_of_sell_signals s) (number_of_ignored_sell_signals s)
         (last_stock_value s) (last_exposure s') (last_open_long_positions s) (last_open_short_positions s) (last_portfolio_value s) (last_earnings s) (final_balance s).
Proof.
  intros A. cbv zeta.
  assert (IG : forall sg, count (fun r => has_signal sg r && no_action r) d' = count (fun r => has_signal sg r && no_action r) d).
  { intro sg. rewrite !stat_ignored by auto. apply count_days_ext. intros i I. rewrite (acts_of i I (A i I)). reflexivity. }
  assert (LA : forall g, (forall i, (i < n)%nat -> g (row_ d' i) = g (row_ d i)) ->
    match count (fun r => match x_signal r with Some _ => true | None => false end) d' with O => F 0 | S k => nround 2 (g (nth k d' simrow0)) end =
    match count (fun r => match x_signal r with Some _ => true | None => false end) d with O => F 0 | S k => nround 2 (g (nth k d simrow0)) end).
  { intros g G. rewrite (stat_last ps m' f' sgs F1' L g), (stat_last ps m f sgs F1 L g). destruct n as [|k]; [reflexivity|]. rewrite (G k) by lia. reflexivity. }
  assert (ROW : forall i, (i < n)%nat -> same_but_exposure (row_ d i) (row_ d' i)) by (intros i I; apply trades_decide; [exact I|intros j J; apply A; lia]).
  assert (OP : n <> 0%nat -> open_longs d' (n - 1) = open_longs d (n - 1) /\ open_shorts d' (n - 1) = open_shorts d (n - 1)).
  { intro N. assert (E : forall k, (k <= n - 1)%nat -> act d' k = act d k /\ price d' k = price d k).
    { intros k K. split; [apply acts_of; [lia|apply A; lia]|apply prices_same; lia]. }
    split; [apply longs_ext|apply shorts_ext]; exact E. }
  assert (LO : last_open_long_positions (statistics (simulate (map Fin ps) m' (Fin f') sgs)) = last_open_long_positions (statistics (simulate (map Fin ps) m (Fin f) sgs)) /\
    last_open_short_positions (statistics (simulate (map Fin ps) m' (Fin f') sgs)) = last_open_short_positions (statistics (simulate (map Fin ps) m (Fin f) sgs))).
  { destruct (Nat.eq_dec n 0) as [Z|Z].
    - destruct sgs; [|discriminate]. cbn [statistics last_open_long_positions last_open_short_positions]. split; reflexivity.
    - destruct (OP Z) as [O1 O2]. rewrite !stat_longs, !stat_shorts by (auto; lia). auto. }
  destruct LO as [LO1 LO2]. cbn [statistics last_open_long_positions last_open_short_positions] in LO1, LO2. unfold statistics.
  cbn [number_of_trading_days number_of_buy_signals number_of_ignored_buy_signals number_of_sell_signals number_of_ignored_sell_signals last_stock_value last_exposure last_open_long_positions last_open_short_positions last_portfolio_value last_earnings final_balance].
  rewrite LO1, LO2, (IG Buy), (IG Sell), !(stat_signals ps m f sgs F1 L), !(stat_signals ps m' f' sgs F1' L).
  rewrite (LA x_stock), (LA x_portfolio_value), (LA x_earnings), (LA x_balance) by (intros i I; destruct (ROW i I) as (_ & _ & ? & ? & ? & ?); auto).
  pose proof (stat_days ps m f sgs F1 L) as D1. pose proof (stat_days ps m' f' sgs F1' L) as D2. cbn [statistics number_of_trading_days] in D1, D2. rewrite D1, D2. reflexivity.
Qed.
End Two.

(** ** without a limit *)
Lemma unlimited_acts ps f sgs i : 1 <= f -> (length sgs <= length ps)%nat -> (i < length sgs)%nat ->
  x_action (row_ (data (simulate (map Fin ps) None (Fin f) sgs)) i) =
  Some (match i with O => ANone | _ => match nth i sgs Hold with Buy => ALong | Sell => AShort | Hold => ANone end end).
Proof.
  intros F1 L I. rewrite sp_action by auto. f_equal. destruct i as [|i]; [apply sp_act0; auto|]. rewrite sp_act by (auto; lia). cbn [fits]. reflexivity.
Qed.
Lemma factor_free ps f f' sgs i : 1 <= f -> 1 <= f' -> (length sgs <= length ps)%nat -> (i < length sgs)%nat ->
  let d := data (simulate (map Fin ps) None (Fin f) sgs) in let d' := data (simulate (map Fin ps) None (Fin f') sgs) in
  same_but_exposure (row_ d i) (row_ d' i) /\ x_exposure (row_ d' i) = nadd (x_exposure (row_ d i)) (Fin ((f' - f) * sold_short d i)).
Proof.
  intros F1 F1' L I. apply trades_decide; auto. intros j J. rewrite !unlimited_acts by (auto; lia). reflexivity.
Qed.
Lemma factor_free_stats ps f f' sgs : 1 <= f -> 1 <= f' -> (length sgs <= length ps)%nat ->
  let s := statistics (simulate (map Fin ps) None (Fin f) sgs) in let s' := statistics (simulate (map Fin ps) None (Fin f') sgs) in
  s' = mkStats (number_of_trading_days s) (number_of_buy_signals s) (number_of_ignored_buy_signals s) (number_of_sell_signals s) (number_of_ignored_sell_signals s)
         (last_stock_value s) (last_exposure s') (last_open_long_positions s) (last_open_short_positions s) (last_portfolio_value s) (last_earnings s) (final_balance s).
Proof. intros F1 F1' L. apply stats_decide; auto. intros i I. rewrite !unlimited_acts by auto. reflexivity. Qed.

(** ** looser limits *)
Section Looser.
Variables (ps : list Qc) (m m' : option num) (f : Qc) (sgs : list signal).
Hypothesis F1 : 1 <= f.
Hypothesis L : (length sgs <= length ps)%nat.
Notation d := (data (simulate (map Fin ps) m (Fin f) sgs)).
Notation d' := (data (simulate (map Fin ps) m' (Fin f) sgs)).
Notation n := (length sgs).

Lemma rows_eq i : (i < n)%nat -> (forall j, (j <= i)%nat -> act d' j = act d j) -> row_ d' i = row_ d i.
Proof.
  intros I A. destruct (trades_decide ps m m' f f sgs F1 F1 L i I) as [(S1 & S2 & S3 & S4 & S5 & S6) X].
  { intros j J. rewrite !sp_action by (auto; lia). rewrite A by auto. reflexivity. }
  replace ((f - f) * sold_short d i) with 0 in X by ring.
  assert (XE : x_exposure (row_ d' i) = x_exposure (row_ d i)) by (rewrite X, sp_exposure by auto; cbn [nadd]; f_equal; ring).
  destruct (row_ d' i), (row_ d i); cbn in *; congruence.
Qed.
(** the action of a day is decided by those before and by whether the position fits *)
Lemma act_step i : (0 < i < n)%nat -> (forall j, (j < i)%nat -> act d' j = act d j) ->
  (forall x, (x = spec_exposure_before f d i i + price d i /\ nth i sgs Hold = Buy \/ x = spec_exposure_before f d i i + f * price d i /\ nth i sgs Hold = Sell) -> fits m' x = fits m x) ->
  act d' i = act d i.
Proof.
  intros I A H. rewrite !sp_act by auto.
  assert (EX : spec_exposure_before f d' i i = spec_exposure_before f d i i).
  { apply exposure_same; [exact A| |lia]. intros j J. rewrite !sp_price by (auto; lia). reflexivity. }
  rewrite EX, (sp_price ps m' f sgs F1 L i) by lia. rewrite <- (sp_price ps m f sgs F1 L i) by lia.
  destruct (nth i sgs Hold) eqn:SG; [rewrite (H (spec_exposure_before f d i i + price d i)) by auto; reflexivity|reflexivity|rewrite (H (spec_exposure_before f d i i + f * price d i)) by auto; reflexivity].
Qed.
Lemma same_until_ignored i : looser m m' -> (i < n)%nat -> (forall j, (0 < j <= i)%nat -> ignored_on d j = false) -> row_ d' i = row_ d i.
Proof.
  intros LO I NI. apply rows_eq; [exact I|]. intro j. induction j as [j IH] using (well_founded_induction lt_wf). intro J.
  destruct j as [|j]; [rewrite !sp_act0 by auto; reflexivity|]. apply act_step; [lia|intros k K; apply IH; lia|].
  specialize (NI (S j) ltac:(lia)). unfold ignored_on in NI. rewrite sp_signal, sp_action, sp_act in NI by (auto; lia).
  intros x [[-> SG]|[-> SG]]; rewrite SG in NI.
  - destruct (fits m (spec_exposure_before f d (S j) (S j) + price d (S j))) eqn:E; [apply LO, E|discriminate].
  - destruct (fits m (spec_exposure_before f d (S j) (S j) + f * price d (S j))) eqn:E; [apply LO, E|discriminate].
Qed.
End Looser.
Lemma before_now f d i : spec_exposure f d i = spec_exposure_before f d i i + match act d i with ALong => price d i | AShort => f * price d i | ANone => 0 end.
Proof.
  unfold spec_exposure, spec_exposure_before. rewrite sum_days_S. f_equal. unfold still_open, opened_exposure. rewrite Nat.leb_refl, Nat.sub_diag. cbn [seq forallb]. destruct (act d i); reflexivity.
Qed.
Lemma limit_not_reached ps v f sgs i : 1 <= f -> (length sgs <= length ps)%nat -> (i < length sgs)%nat ->
  let d := data (simulate (map Fin ps) None (Fin f) sgs) in
  (forall j, (0 < j <= i)%nat -> nth j sgs Hold <> Hold -> nltb v (x_exposure (row_ d j)) = false) ->
  row_ (data (simulate (map Fin ps) (Some v) (Fin f) sgs)) i = row_ d i.
Proof.
  intros F1 L I d H. apply rows_eq; auto. intro j. induction j as [j IH] using (well_founded_induction lt_wf). intro J.
  destruct j as [|j]; [rewrite !sp_act0 by auto; reflexivity|]. apply act_step; auto; [lia|intros k K; apply IH; lia|].
  specialize (H (S j) ltac:(lia)). unfold d in H. rewrite sp_exposure, before_now, sp_act in H by (auto; lia).
  intros x [[-> SG]|[-> SG]]; rewrite SG in H; cbn [fits] in *; rewrite H by discriminate; reflexivity.
Qed.
