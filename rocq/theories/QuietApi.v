(** * QuietApi: simulations with fewer signals, and the bands and targets that give fewer signals. *)
From Coq Require Import ZArith QArith Qcanon Bool List String PeanoNat Lia.
From Verif Require Import Num NumFacts RoundFacts Pandas Sim Frame FrameSpec FrameProofs SimSpec SimProofs SimLemmas SimLimit Ind Signal Api IndSpec SeriesFacts Lengths Causal IndFacts Shape ApiSpec ApiCheck ApiProofs ApiLemmas RangeSpec Cells RangeFacts RangeMore Publish RangeApi ValueSpec ValueFacts ValueMore Recur ValueApi CumulApi.
From Verif Require Import FormulaSpec OrderFacts SignalSpec SignalApi SignalApi2 OneWaySpec OneWay OneWayApi AdviceSpec AdviceApi QuietSpec QuietSim.
Import ListNotations.
Open Scope list_scope. Open Scope string_scope. Open Scope Qc_scope.

Lemma count_days_le n (p q : nat -> bool) : (forall j, (j < n)%nat -> p j = true -> q j = true) -> (count_days n p <= count_days n q)%nat.
Proof. induction n as [|n IH]; intro H; [reflexivity|]. rewrite !count_days_S. specialize (IH ltac:(intros j J; apply H; lia)). specialize (H n ltac:(lia)). destruct (p n); [rewrite H by reflexivity|]; destruct (q n); lia. Qed.
Lemma count_quieter sg a b : quieter_days a b -> sg <> Hold -> (count (sig_eqb sg) a <= count (sig_eqb sg) b)%nat.
Proof.
  intros [L Q] N. rewrite !(count_seq _ _ Hold), L. apply count_days_le. intros j _ E. destruct (Q j) as [E2|<-]; [|exact E]. rewrite E2 in E. destruct sg; (discriminate || congruence).
Qed.

(** two simulations on the same close values, without limit *)
Section Two.
  Variables (o o' : oracle) (c c' : ctor) (raw raw' : rawframe) (b b' : bool) (ob ob' : obj) (cv : rawval) (fa : pyval) (f : Qc) (st st' : sim) (sts sts' : stats).
  Hypothesis W : wf_raw raw.
  Hypothesis W' : wf_raw raw'.
  Hypothesis H : snd (construct o c (RFrame raw) (VBool b)) = Ok ob.
  Hypothesis H' : snd (construct o' c' (RFrame raw') (VBool b')) = Ok ob'.
  Hypothesis ND : is_dpo (ob_ind ob) = false.
  Hypothesis ND' : is_dpo (ob_ind ob') = false.
  Hypothesis FA : number_of fa = Some (Fin f).
  Hypothesis R : snd (get_ti_simulation ob cv VNone fa) = Ok (st, sts).
  Hypothesis R' : snd (get_ti_simulation ob' cv VNone fa) = Ok (st', sts').
  Hypothesis PR : forall k, (k < days_given ob)%nat -> isfin (x_stock (row_ (data st) k)) = true.

  Lemma two_runs : exists ps a a', st = simulate (map Fin ps) None (Fin f) a /\ st' = simulate (map Fin ps) None (Fin f) a' /\ sts = statistics st /\ sts' = statistics st' /\ 1 <= f /\
    List.length ps = days_given ob /\ List.length a = days_given ob /\ List.length a' = days_given ob /\ days_given ob' = days_given ob /\
    (forall k, (k < days_given ob)%nat -> get_ti_signal (limited k ob) = Ok (nth k a Hold)) /\ (forall k, (k < days_given ob)%nat -> get_ti_signal (limited k ob') = Ok (nth k a' Hold)).
  Proof.
    pose proof (construct_sound _ _ _ _ _ W H) as SO. pose proof (construct_sound _ _ _ _ _ W' H') as SO'.
    destruct (simulation_inv _ _ _ _ _ _ SO R) as (cl & m & x & a & A & E & L & ST & P). destruct (simulation_inv _ _ _ _ _ _ SO' R') as (cl' & m' & x' & a' & A' & E' & L' & ST' & P').
    assert (LT : List.length (rows (ob_ti ob)) = days_given ob) by (rewrite ti_shorter by (auto using not_dpo); unfold days_given; apply len_index).
    assert (LT' : List.length (rows (ob_ti ob')) = days_given ob') by (rewrite ti_shorter by (auto using not_dpo); unfold days_given; apply len_index).
    assert (LC : List.length cl = days_given ob) by (rewrite (start_len _ _ _ _ _ _ _ A); unfold days_given; apply len_index).
    destruct A as (fr & V1 & IX & M & X & CL). destruct A' as (fr' & V2 & IX' & M' & X' & CL'). rewrite V1 in V2. injection V2 as <-. cbn in M, M'. injection M as <-. injection M' as <-. rewrite X in X'. injection X' as <-.
    assert (DD : days_given ob' = days_given ob) by (unfold days_given; rewrite <- !len_index, <- IX, <- IX'; reflexivity).
    assert (C2 : cl' = cl) by congruence. rewrite C2 in E'. clear CL CL' C2.
    set (ps := map qv cl). assert (CE : cl = map Fin ps).
    { apply (nth_ext _ _ NaN NaN); [unfold ps; rewrite !map_length; reflexivity|]. intros j J. rewrite LC in J. unfold ps. rewrite map_map.
      destruct (simulate_rows cl None x a j ltac:(lia) ltac:(lia)) as (_ & _ & Y). specialize (PR j J). rewrite E in PR. unfold row_ in PR. rewrite Y in PR.
      rewrite (nth_indep (map _ _) NaN ((fun z => Fin (qv z)) NaN)) by (rewrite map_length; lia). rewrite (map_nth (fun z => Fin (qv z))). destruct (nth j cl NaN); try discriminate PR. reflexivity. }
    unfold check_factor in X. rewrite FA in X. destruct (nltb (Fin f) (F 1)) eqn:F1; [discriminate|]. injection X as <-.
    exists ps, a, a'. rewrite <- CE. split; [exact E|]. split; [exact E'|]. split; [exact ST|]. split; [exact ST'|].
    split; [cbn in F1; change (Q2Qc (inject_Z 1)) with 1 in F1; destruct (qltb_spec f 1) as [G|G]; [discriminate|apply Qcnot_lt_le; exact G]|].
    split; [unfold ps; rewrite map_length; exact LC|]. split; [lia|]. split; [lia|]. split; [exact DD|]. split; intros k K; [apply P|apply P']; lia.
  Qed.
  Lemma fewer_earn_less : (forall k, (k < days_given ob)%nat -> x_signal (row_ (data st) k) = Some Hold \/ x_signal (row_ (data st) k) = x_signal (row_ (data st') k)) ->
    (forall i, (i < days_given ob)%nat -> nleb (x_earnings (row_ (data st) i)) (x_earnings (row_ (data st') i)) = true) /\
    (number_of_buy_signals sts <= number_of_buy_signals sts')%nat /\ (number_of_sell_signals sts <= number_of_sell_signals sts')%nat /\
    (last_open_long_positions sts <= last_open_long_positions sts')%nat /\ (last_open_short_positions sts <= last_open_short_positions sts')%nat /\
    nleb (last_earnings sts) (last_earnings sts') = true.
  Proof.
    intro Q. destruct two_runs as (ps & a & a' & E & E' & ST & ST' & F1 & LP & LA & LA' & _).
    assert (LAP : (List.length a <= List.length ps)%nat) by lia. assert (LAP' : (List.length a' <= List.length ps)%nat) by lia.
    assert (QD : quieter_days a a').
    { split; [lia|]. intro i. destruct (Nat.lt_ge_cases i (days_given ob)) as [I|I]; [|rewrite !nth_overflow by lia; left; reflexivity]. specialize (Q i I). rewrite E, E', !(sp_signal ps None f) in Q by (auto; lia). destruct Q as [Q|Q]; injection Q as Q; [left|right]; exact Q. }
    assert (G : forall i, (i < days_given ob)%nat -> nleb (x_earnings (row_ (data st) i)) (x_earnings (row_ (data st') i)) = true) by (intros i I; rewrite E, E'; apply (fewer_signals ps f a a' i F1 LAP' ltac:(lia) QD)).
    split; [exact G|]. rewrite ST, ST', E, E'. split; [cbn [statistics number_of_buy_signals]; rewrite !stat_signals by auto; apply count_quieter; [exact QD|discriminate]|].
    split; [cbn [statistics number_of_sell_signals]; rewrite !stat_signals by auto; apply count_quieter; [exact QD|discriminate]|].
    destruct (days_given ob) as [|k] eqn:DK.
    - destruct a; [|discriminate LA]. destruct a'; [|discriminate LA']. destruct ps; [|discriminate LP]. split; [lia|]. split; [lia|]. vm_compute. reflexivity.
    - destruct (stat_values ps None f a F1 LAP k LA) as (_ & _ & _ & S4 & _ & S6 & S7). destruct (stat_values ps None f a' F1 LAP' k LA') as (_ & _ & _ & S4' & _ & S6' & S7'). rewrite S4, S4', S6, S6', S7, S7'.
      destruct (fewer_signals ps f a a' k F1 LAP' ltac:(lia) QD) as (X1 & X2 & X3 & _). split; [exact X2|]. split; [exact X3|].
      rewrite !(sp_earnings ps None f) in X1 |- * by (auto; lia). apply nleb_fin in X1. cbn [nround]. apply nleb_fin, qround_mono, X1.
  Qed.
End Two.

(** ** wider bands *)
Lemma round_mono x y : nleb x y = true -> nleb (nround 4 x) (nround 4 y) = true.
Proof. destruct x, y; try discriminate; try reflexivity. intro L. apply nleb_fin in L. apply nleb_fin, qround_mono, L. Qed.
Lemma within_round x y : within x y -> within (nround 4 x) (nround 4 y).
Proof. intros [->|L]; [left; reflexivity|right; apply round_mono, L]. Qed.
Lemma wider_scaled m sd w w' : 0 <= sd -> nltb (F 0) w' = true -> nleb w' w = true ->
  within (nadd (Fin m) (nmul (Fin sd) w')) (nadd (Fin m) (nmul (Fin sd) w)) /\
  (nsub (Fin m) (nmul (Fin sd) w) = NaN \/ nleb (nsub (Fin m) (nmul (Fin sd) w)) (nsub (Fin m) (nmul (Fin sd) w')) = true).
Proof.
  intros S0 P L. destruct w' as [| | |v']; try discriminate P; destruct w as [| | |v]; try discriminate L.
  - cbn. unfold infmul. destruct (qeqb_spec sd 0) as [E|E]; [split; left; reflexivity|]. replace (qltb 0 sd) with true by (symmetry; apply qltb_iff; apply qc_nonneg_neq0_pos; auto). cbn. split; right; reflexivity.
  - cbn [nmul]. unfold infmul. destruct (qeqb_spec sd 0) as [E|E]; [split; left; reflexivity|]. replace (qltb 0 sd) with true by (symmetry; apply qltb_iff; apply qc_nonneg_neq0_pos; auto). cbn. split; right; reflexivity.
  - apply nleb_fin in L. cbn [nmul nadd nsub]. assert (sd * v' <= sd * v) by qnra. split; right; apply nleb_fin; qlra.
Qed.
Section Bands.
  Variables (o : oracle) (raw : rawframe) (b : bool) (ob ob' : obj).
  Hypothesis W : wf_raw raw.
  Notation made c x := (snd (construct o c (RFrame raw) (VBool b)) = Ok x).
  (** both objects work on the same data *)
  Lemma same_given c c' nm j : made c ob -> made c' ob' -> required (asked c) = required (asked c') -> In nm (required (asked c)) -> given nm ob' j = given nm ob j.
  Proof.
    intros H H' E I. destruct (construct_view _ _ _ _ _ W H) as (f & V). destruct (construct_view _ _ _ _ _ W H') as (f' & V').
    rewrite (view_given V), (view_given V') by (rewrite <- ?E; exact I). pose proof (v_val _ _ _ _ _ _ V) as X. pose proof (v_val _ _ _ _ _ _ V') as X'. rewrite <- E, X in X'. injection X' as <-. reflexivity.
  Qed.
  Lemma std_positive p w x : made (cBB p w) x -> nltb (F 0) (as_number w) = true.
  Proof. intro H. destruct (construct_params _ _ _ _ _ H (mkParam "std_number" (is_number w) (nltb (F 0) (as_number w)))) as [_ A]; [cbn; auto|exact A]. Qed.
  Lemma shift_range p w x : made (cENV p w) x -> exists a, as_number w = Fin a /\ 0 < a /\ a < 1.
  Proof.
    intro H. destruct (construct_params _ _ _ _ _ H (mkParam "shift" (is_float w) (nltb (F 0) (as_number w) && nltb (as_number w) (F 1)))) as [_ A]; [cbn; auto|].
    cbn [p_range] in A. apply andb_true_iff in A as [A B]. destruct (pos_cases _ A) as [E|(a & E & PA)]; rewrite E in *; [discriminate B|]. exists a. split; [reflexivity|]. split; [exact PA|]. cbn in B. apply qltb_iff in B. exact B.
  Qed.
  Lemma win_or x p k : (0 < p)%nat -> (exists f, win x p k f) \/ (forall f, ~ win x p k f).
  Proof.
    intros P. destruct (Nat.le_gt_cases p (S k)) as [L|L]; [|right; intros f [X _]; lia].
    destruct (forallb (fun j => isfin (x j)) (seq (S k - p) p)) eqn:E.
    - left. exists (fun j => qv (x (S k - p + j)%nat)). split; [exact L|]. intros j J. rewrite forallb_forall in E. specialize (E (S k - p + j)%nat ltac:(apply in_seq; lia)). destruct (x (S k - p + j)%nat); try discriminate E. reflexivity.
    - right. intros f [_ F0]. apply not_true_iff_false in E. apply E. apply forallb_forall. intros j J. apply in_seq in J. specialize (F0 (j - (S k - p))%nat ltac:(lia)). replace (S k - p + (j - (S k - p)))%nat with j in F0 by lia. rewrite F0. reflexivity.
  Qed.
  Lemma bb_wider p w w' k : made (cBB p w) ob -> made (cBB p w') ob' -> good_sqrt o -> nleb (as_number w') (as_number w) = true ->
    within (shown "upper_band" ob' k) (shown "upper_band" ob k) /\ above (shown "lower_band" ob k) (shown "lower_band" ob' k).
  Proof.
    intros H H' G L. assert (P : (0 < nat_arg p)%nat) by (destruct (construct_view _ _ _ _ _ W H) as (fr & V); pose proof (v_valid _ _ _ _ _ _ V) as VV; cbn in VV; lia).
    destruct (bb_shown_values o raw b ob W p w k H) as (_ & [U1 U2] & [L1 L2]). destruct (bb_shown_values o raw b ob' W p w' k H') as (_ & [U1' U2'] & [L1' L2']).
    assert (SG : forall j, given "close" ob' j = given "close" ob j) by (intro j; apply (same_given _ _ _ _ H H'); [reflexivity|cbn; auto]).
    destruct (win_or (given "close" ob) (nat_arg p) k P) as [(f & Wf)|NW].
    - assert (Wf' : win (given "close" ob') (nat_arg p) k f) by (apply (win_same (given "close" ob)); [intro j; symmetry; apply SG|exact Wf]).
      rewrite (U1 f Wf), (L1 f Wf), (U1' f Wf'), (L1' f Wf'). destruct (wider_scaled (r4 (mean f (nat_arg p))) (o_sqrt o (variance f (nat_arg p))) (as_number w) (as_number w') (G _ (variance_nonneg _ _)) (std_positive _ _ _ H') L) as [X [Y|Y]].
      + split; [apply within_round, X|]. left. rewrite Y. reflexivity.
      + split; [apply within_round, X|]. right. apply round_mono, Y.
    - rewrite (U2 NW), (L2 NW). split; left; reflexivity.
  Qed.
  Lemma env_wider p w w' k : made (cENV p w) ob -> made (cENV p w') ob' -> (forall j, present_le (F 0) (given "close" ob j)) -> nleb (as_number w') (as_number w) = true ->
    within (shown "upper_band" ob' k) (shown "upper_band" ob k) /\ above (shown "lower_band" ob k) (shown "lower_band" ob' k).
  Proof.
    intros H H' G L. assert (P : (0 < nat_arg p)%nat) by (destruct (construct_view _ _ _ _ _ W H) as (fr & V); pose proof (v_valid _ _ _ _ _ _ V) as VV; cbn in VV; lia).
    destruct (env_shown_values o raw b ob W p w k H) as ([U1 U2] & [L1 L2]). destruct (env_shown_values o raw b ob' W p w' k H') as ([U1' U2'] & [L1' L2']).
    assert (SG : forall j, given "close" ob' j = given "close" ob j) by (intro j; apply (same_given _ _ _ _ H H'); [reflexivity|cbn; auto]).
    destruct (shift_range _ _ _ H) as (v & EV & V0 & V1). destruct (shift_range _ _ _ H') as (v' & EV' & V0' & V1'). rewrite EV, EV' in *. apply nleb_fin in L.
    destruct (win_or (given "close" ob) (nat_arg p) k P) as [(f & Wf)|NW].
    - assert (Wf' : win (given "close" ob') (nat_arg p) k f) by (apply (win_same (given "close" ob)); [intro j; symmetry; apply SG|exact Wf]).
      rewrite (U1 f Wf), (L1 f Wf), (U1' f Wf'), (L1' f Wf'). cbn [nadd nsub nmul].
      assert (M : 0 <= mean f (nat_arg p)). { apply mean_nonneg; [exact P|]. intros j J. destruct Wf as [_ F0]. specialize (F0 j J). destruct (G (S k - nat_arg p + j)%nat) as [X|[X|X]]; [discriminate|congruence|]. rewrite F0 in X. apply nleb_fin in X. exact X. }
      set (mm := mean f (nat_arg p)) in *. clearbody mm. change (Q2Qc (inject_Z 1)) with 1. split; right; apply round_mono, nleb_fin; qnra.
    - rewrite (U2 NW), (L2 NW). split; left; reflexivity.
  Qed.
  Lemma pch_wider p p' k : made (cPCH p) ob -> made (cPCH p') ob' -> (nat_arg p' <= nat_arg p)%nat -> (k < days_given ob)%nat ->
    within (shown "highest_high" ob' k) (shown "highest_high" ob k) /\ above (shown "lowest_low" ob k) (shown "lowest_low" ob' k).
  Proof.
    intros H H' L K.
    assert (SG : forall nm j, In nm ["high"; "low"; "close"] -> given nm ob' j = given nm ob j) by (intros nm j I; apply (same_given _ _ _ _ H H'); [reflexivity|cbn in *; tauto]).
    assert (P' : (0 < nat_arg p')%nat) by (destruct (construct_view _ _ _ _ _ W H') as (fr & V); pose proof (v_valid _ _ _ _ _ _ V) as VV; cbn in VV; lia).
    assert (K' : (k < days_given ob')%nat).
    { destruct (construct_view _ _ _ _ _ W H) as (f & V). destruct (construct_view _ _ _ _ _ W H') as (f' & V'). rewrite (view_days V) in K. rewrite (view_days V'). pose proof (v_len _ _ _ _ _ _ V). pose proof (v_len _ _ _ _ _ _ V'). lia. }
    split.
    - destruct (pch_shown_high o raw b ob W p k H K) as [(M & A & F0 & [(j0 & J0 & _) HM] & E)|(_ & E)]; [|left; exact E]. right. rewrite E.
      destruct (pch_shown_high o raw b ob' W p' k H' K') as [(M' & A' & F0' & [(j & J & X) _] & E')|([A'|(j & J & X)] & _)]; [|lia|].
      + rewrite E'. apply nleb_fin, r4_le. rewrite (SG "high") in X by (cbn; auto). apply (HM j); [lia|exact X].
      + rewrite (SG "high") in X by (cbn; auto). rewrite (F0 j) in X by lia. discriminate.
    - destruct (pch_shown_low o raw b ob W p k H K) as [(M & A & F0 & [(j0 & J0 & _) HM] & E)|(_ & E)]; [|left; exact E]. right. rewrite E.
      destruct (pch_shown_low o raw b ob' W p' k H' K') as [(M' & A' & F0' & [(j & J & X) _] & E')|([A'|(j & J & X)] & _)]; [|lia|].
      + rewrite E'. apply nleb_fin, r4_le. rewrite (SG "low") in X by (cbn; auto). apply (HM j); [lia|exact X].
      + rewrite (SG "low") in X by (cbn; auto). rewrite (F0 j) in X by lia. discriminate.
  Qed.

  Lemma bb_lower_upper p w k : made (cBB p w) ob -> good_sqrt o -> present_le (shown "lower_band" ob k) (shown "upper_band" ob k).
  Proof.
    intros H G. assert (P : (0 < nat_arg p)%nat) by (destruct (construct_view _ _ _ _ _ W H) as (fr & V); pose proof (v_valid _ _ _ _ _ _ V) as VV; cbn in VV; lia).
    destruct (bb_shown_order o raw b ob W p w k H G) as [A B]. destruct (bb_shown_values o raw b ob W p w k H) as ([M1 M2] & _ & [L1 L2]).
    destruct (win_or (given "close" ob) (nat_arg p) k P) as [(f & Wf)|NW]; [|left; exact (L2 NW)]. rewrite (M1 f Wf) in A, B.
    destruct A as [A|[A|A]]; [left; exact A|discriminate|]. destruct B as [B|[B|B]]; [discriminate|right; left; exact B|]. destruct (shown "lower_band" ob k), (shown "upper_band" ob k); try discriminate; try (right; right; reflexivity).
    apply nleb_fin in A, B. right. right. apply nleb_fin. eapply Qcle_trans; eassumption.
  Qed.
  Lemma pch_low_high p k : made (cPCH p) ob -> (k < days_given ob)%nat -> (forall j, present_le (given "low" ob j) (given "high" ob j)) -> present_le (shown "lowest_low" ob k) (shown "highest_high" ob k).
  Proof.
    intros H K S0. assert (P : (0 < nat_arg p)%nat) by (destruct (construct_view _ _ _ _ _ W H) as (fr & V); pose proof (v_valid _ _ _ _ _ _ V) as VV; cbn in VV; lia).
    destruct (pch_shown_high o raw b ob W p k H K) as [(M & A & F0 & [_ HM] & E)|(_ & E)]; [|right; left; exact E].
    destruct (pch_shown_low o raw b ob W p k H K) as [(M' & A' & F0' & [_ HM'] & E')|(_ & E')]; [|left; exact E'].
    rewrite E, E'. right. right. apply nleb_fin, r4_le. pose proof (F0 (k - 1)%nat ltac:(lia)) as X. pose proof (F0' (k - 1)%nat ltac:(lia)) as X'.
    destruct (given "high" ob (k - 1)) as [| | |h] eqn:EH; try discriminate X. destruct (given "low" ob (k - 1)) as [| | |l] eqn:EL; try discriminate X'.
    destruct (S0 (k - 1)%nat) as [Y|[Y|Y]]; [congruence|congruence|]. rewrite EH, EL in Y. apply nleb_fin in Y. pose proof (HM (k - 1)%nat h ltac:(lia) EH). pose proof (HM' (k - 1)%nat l ltac:(lia) EL). qlra.
  Qed.
End Bands.
Lemma limited_shown o c raw b ob k : wf_raw raw -> NoDup (dates raw) -> snd (construct o c (RFrame raw) (VBool b)) = Ok ob -> is_dpo (ob_ind ob) = false -> (k < days_given ob)%nat -> days_shown (limited k ob) = S k.
Proof.
  intros W N H D K. destruct (construct_data_shape _ _ _ _ _ W H) as (_ & _ & _ & _ & E & _). pose proof (construct_sound _ _ _ _ _ W H) as (_ & _ & _ & SS & _ & _ & TI & _). specialize (TI (not_dpo _ D)).
  assert (NI : NoDup (index (ob_ti ob))) by (rewrite TI; apply (Permutation.Permutation_NoDup (Permutation.Permutation_sym E)); auto). rewrite <- TI in SS.
  assert (LT : List.length (rows (ob_ti ob)) = days_given ob) by (unfold days_given; rewrite <- (len_index (ob_ti ob)), TI, len_index; reflexivity).
  unfold days_shown, get_ti_data, limited. cbn [ob_ti]. unfold upto. cbn [rows]. apply kept_rows; [assumption|assumption|]. unfold row in *. rewrite LT. exact K.
Qed.
Lemma less_within x y c : within x y -> less y c -> less x c.
Proof. intros [->|L] M; [contradiction|]. destruct x, y, c; try discriminate; try contradiction; try exact Logic.I. apply nleb_fin in L. cbn in *. qlra. Qed.
Lemma less_above x y c : above x y -> less c x -> less c y.
Proof. intros [->|L] M; [destruct c; contradiction|]. destruct x, y, c; try discriminate; try contradiction; try exact Logic.I. apply nleb_fin in L. cbn in *. qlra. Qed.
Lemma not_both l u c : present_le l u -> less c l -> less u c -> False.
Proof. intros [->|[->|L]] A B; [destruct c; contradiction|contradiction|]. destruct l, u, c; try discriminate; try contradiction. apply nleb_fin in L. cbn in *. qlra. Qed.
Lemma at_most_iff x y : at_most x y <-> nleb x y = true.
Proof.
  unfold at_most. destruct x, y; cbn; try (split; [intros [[]|[]]|discriminate]); try (split; [reflexivity|intros _; auto]). rewrite nleb_fin. split; [intros [A|A]; [qlra|subst; apply Qcle_refl]|].
  intro A. destruct (Qcle_lt_or_eq _ _ A); auto.
Qed.
Lemma nleb_trans x y z : nleb x y = true -> nleb y z = true -> nleb x z = true.
Proof. intros A B. destruct x, y, z; try discriminate; try reflexivity. apply nleb_fin in A, B. apply nleb_fin. eapply Qcle_trans; eassumption. Qed.

Section Signals.
  Variables (o : oracle) (raw : rawframe) (b : bool) (ob ob' : obj) (c c' : ctor).
  Hypothesis W : wf_raw raw.
  Hypothesis N : NoDup (dates raw).
  Hypothesis H : snd (construct o c (RFrame raw) (VBool b)) = Ok ob.
  Hypothesis H' : snd (construct o c' (RFrame raw) (VBool b)) = Ok ob'.
  Hypothesis WD : wider c c'.
  Hypothesis G : good_sqrt o.
  Hypothesis SF : sound_for c ob.
  Lemma wider_same_input : required (asked c) = required (asked c') /\ is_dpo (asked c) = false /\ is_dpo (asked c') = false.
  Proof.
    destruct c; try contradiction; destruct c'; try contradiction; cbn [wider] in WD; try (match type of WD with match ?x with _ => _ end => destruct x; contradiction end); cbn; auto.
  Qed.
  Lemma wider_ind : ob_ind ob = asked c /\ ob_ind ob' = asked c'.
  Proof. split; [exact (OneWayApi.ind_asked o raw b ob W c H)|exact (OneWayApi.ind_asked o raw b ob' W c' H')]. Qed.
  Lemma wider_days : days_given ob' = days_given ob.
  Proof.
    destruct (construct_view _ _ _ _ _ W H) as (f & V). destruct (construct_view _ _ _ _ _ W H') as (f' & V'). rewrite (view_days V), (view_days V'). pose proof (v_len _ _ _ _ _ _ V). pose proof (v_len _ _ _ _ _ _ V'). lia.
  Qed.
  Lemma wider_bands up low k : band_rule c = Some (up, low) -> (k < days_given ob)%nat ->
    within (shown up ob' k) (shown up ob k) /\ above (shown low ob k) (shown low ob' k) /\ present_le (shown low ob' k) (shown up ob' k).
  Proof.
    intros B K. pose proof wider_days as WDY. destruct c; try discriminate B; destruct c'; try contradiction; injection B as <- <-; cbn [wider] in WD.
    - destruct WD as [<- L]. destruct (bb_wider o raw b ob ob' W _ _ _ k H H' G L) as [X Y]. split; [exact X|]. split; [exact Y|]. exact (bb_lower_upper o raw b ob' W _ _ k H' G).
    - destruct WD as [<- L]. destruct (env_wider o raw b ob ob' W _ _ _ k H H' SF L) as [X Y]. split; [exact X|]. split; [exact Y|].
      apply (env_shown_order o raw b ob' W _ _ k H'). intro j. rewrite (same_given o raw b ob ob' W _ _ "close" j H H'); [apply SF|reflexivity|cbn; auto].
    - destruct (pch_wider o raw b ob ob' W _ _ k H H' WD K) as [X Y]. split; [exact X|]. split; [exact Y|]. apply (pch_low_high o raw b ob' W _ k H'); [lia|].
      intro j. rewrite !(same_given o raw b ob ob' W _ _ _ j H H') by (reflexivity || (cbn; tauto)). apply SF.
  Qed.
  Lemma band_rule_wider : band_rule c' = band_rule c.
  Proof. destruct c; try contradiction; destruct c'; try contradiction; try reflexivity; cbn [wider] in WD; match type of WD with match ?x with _ => _ end => destruct x; contradiction end. Qed.
  Lemma lim_close k : In "close" (required (asked c)) -> (k < days_given ob)%nat -> SignalSpec.price "close" (limited k ob') 1 = SignalSpec.price "close" (limited k ob) 1.
  Proof.
    intros I K. pose proof wider_days as WDY. unfold SignalSpec.price. destruct (limited_days o c raw b ob k W N H K) as [D E]. destruct (limited_days o c' raw b ob' k W N H' ltac:(lia)) as [D' E'].
    rewrite D, D', E, E' by lia. apply (same_given o raw b ob ob' W c c'); auto. apply wider_same_input.
  Qed.
  Lemma wider_signal k s s' : (k < days_given ob)%nat -> get_ti_signal (limited k ob) = Ok s -> get_ti_signal (limited k ob') = Ok s' -> quieter s s'.
  Proof.
    intros K E E'. pose proof wider_days as WDY. destruct wider_same_input as (RQ & D1 & D2). destruct wider_ind as [I1 I2]. rewrite <- I1 in D1. rewrite <- I2 in D2.
    pose proof (limited_shown o c raw b ob k W N H D1 K) as DS. pose proof (limited_shown o c' raw b ob' k W N H' D2 ltac:(lia)) as DS'.
    pose proof (OneWayApi.lim_working o raw b ob W c k H) as WK. pose proof (OneWayApi.lim_working o raw b ob' W c' k H') as WK'.
    assert (AG : forall n, ago n (limited k ob) 1 = shown n ob k) by (intro n; apply (limited_last o c raw b ob k n W N H D1 K)).
    assert (AG' : forall n, ago n (limited k ob') 1 = shown n ob' k) by (intro n; apply (limited_last o c' raw b ob' k n W N H' D2); lia).
    destruct (band_rule c) as [[up low]|] eqn:B.
    - destruct (wider_bands up low k B K) as (X & Y & Z). pose proof (@band_answers o raw b _ _ _ _ B WK) as [_ A]. pose proof (@band_answers o raw b _ _ _ _ (eq_trans band_rule_wider B) WK') as [_ A'].
      specialize (A ltac:(lia)). specialize (A' ltac:(lia)). rewrite lim_close in A' by (exact K || (destruct c; try discriminate B; cbn; auto)).
      rewrite !AG in A. rewrite !AG' in A'. rewrite E in A. rewrite E' in A'. set (cl := SignalSpec.price "close" (limited k ob) 1) in *. destruct A as (A1 & A2 & _). destruct A' as (A1' & A2' & _).
      destruct s; [|left; reflexivity|]; right.
      + destruct (proj1 A2 eq_refl) as [Q _]. pose proof (less_above _ _ _ Y Q) as Q'. assert (T : Ok s' = Ok Buy) by (apply A2'; split; [exact Q'|]; intro U; exact (not_both _ _ _ Z Q' U)). congruence.
      + pose proof (less_within _ _ _ X (proj1 A1 eq_refl)) as Q'. assert (T : Ok s' = Ok Sell) by (apply A1'; exact Q'). congruence.
    - destruct c as [| | | | | | | | | | | | | | | | | | | | | | | | | | | |m t| | | | | | | | | | | | | | | | | | | | | | | | | | | |]; try discriminate B; try contradiction; destruct m as [| | |m| |]; try contradiction.
      destruct c' as [| | | | | | | | | | | | | | | | | | | | | | | | | | | |m' t'| | | | | | | | | | | | | | | | | | | | | | | | | | | |]; try contradiction; destruct m' as [| | |m'| |]; try contradiction. destruct WD as [<- WT].
      assert (SP : shown "prf" ob' k = shown "prf" ob k).
      { destruct (construct_view _ _ _ _ _ W H) as (f & V). destruct (construct_view _ _ _ _ _ W H') as (f' & V'). pose proof (v_val _ _ _ _ _ _ V) as VX. pose proof (v_val _ _ _ _ _ _ V') as VX'. rewrite <- RQ, VX in VX'. injection VX' as <-.
        unfold shown. erewrite (view_cell V "prf") by (cbn; reflexivity). erewrite (view_cell V' "prf") by (cbn; reflexivity). reflexivity. }
      destruct WT as [[-> L]|[-> L]].
      + pose proof (@prf_answers o raw b _ _ WK) as [_ A]. pose proof (@prf_answers o raw b _ _ WK') as [_ A']. specialize (A ltac:(lia)). specialize (A' ltac:(lia)). rewrite AG in A. rewrite AG', SP in A'. rewrite E, at_most_iff in A. rewrite E', at_most_iff in A'.
        destruct s; [exfalso| left; reflexivity|right].
        * destruct A as [A1 A2]. destruct (nleb (as_number t) (shown "prf" ob k)); [discriminate (proj2 A1 eq_refl)|]. assert (X : Ok Buy = Ok Hold) by (apply A2; discriminate). discriminate X.
        * pose proof (proj1 (proj1 A) eq_refl) as Q. assert (T : Ok s' = Ok Sell) by (apply (proj1 A'); exact (nleb_trans _ _ _ L Q)). congruence.
      + pose proof (@prf_short_answers o raw b _ _ WK) as [_ A]. pose proof (@prf_short_answers o raw b _ _ WK') as [_ A']. specialize (A ltac:(lia)). specialize (A' ltac:(lia)). rewrite AG in A. rewrite AG', SP in A'. rewrite E, at_most_iff in A. rewrite E', at_most_iff in A'.
        destruct s; [right|left; reflexivity|exfalso].
        * pose proof (proj1 (proj1 A) eq_refl) as Q. assert (T : Ok s' = Ok Buy) by (apply (proj1 A'); exact (nleb_trans _ _ _ Q L)). congruence.
        * destruct A as [A1 A2]. destruct (nleb (shown "prf" ob k) (as_number t)); [discriminate (proj2 A1 eq_refl)|]. assert (X : Ok Sell = Ok Hold) by (apply A2; discriminate). discriminate X.
  Qed.

  Variables (cv : rawval) (fa : pyval) (f : Qc) (st st' : sim) (sts sts' : stats).
  Hypothesis FA : number_of fa = Some (Fin f).
  Hypothesis R : snd (get_ti_simulation ob cv VNone fa) = Ok (st, sts).
  Hypothesis R' : snd (get_ti_simulation ob' cv VNone fa) = Ok (st', sts').
  Hypothesis PR : forall k, (k < days_given ob)%nat -> isfin (x_stock (row_ (data st) k)) = true.
  Lemma wider_simulation : (forall i, (i < days_given ob)%nat -> (x_signal (row_ (data st) i) = Some Hold \/ x_signal (row_ (data st) i) = x_signal (row_ (data st') i)) /\
      nleb (x_earnings (row_ (data st) i)) (x_earnings (row_ (data st') i)) = true) /\
    (number_of_buy_signals sts <= number_of_buy_signals sts')%nat /\ (number_of_sell_signals sts <= number_of_sell_signals sts')%nat /\
    nleb (last_earnings sts) (last_earnings sts') = true.
  Proof.
    destruct wider_same_input as (_ & D1 & D2). destruct wider_ind as [I1 I2]. rewrite <- I1 in D1. rewrite <- I2 in D2.
    assert (Q : forall k, (k < days_given ob)%nat -> x_signal (row_ (data st) k) = Some Hold \/ x_signal (row_ (data st) k) = x_signal (row_ (data st') k)).
    { destruct (two_runs o o c c' raw raw b b ob ob' cv fa f st st' sts sts' W W H H' D1 D2 FA R R' PR) as (ps & a & a' & E & E' & _ & _ & F1 & LP & LA & LA' & _ & S1 & S2).
      intros k K. rewrite E, E', !(sp_signal ps None f) by (auto; lia). destruct (wider_signal k _ _ K (S1 k K) (S2 k K)) as [X|X]; rewrite X; auto. }
    destruct (fewer_earn_less o o c c' raw raw b b ob ob' cv fa f st st' sts sts' W W H H' D1 D2 FA R R' PR Q) as (X1 & X2 & X3 & _ & _ & X4).
    split; [intros i I; split; [apply Q|apply X1]; exact I|]. auto.
  Qed.
End Signals.
