(** * MirrorSims: the simulations of one indicator on a market and on the market turned upside down. *)
From Coq Require Import ZArith QArith Qcanon Bool List String PeanoNat Lia Sorted Permutation.
From Verif Require Import Num NumFacts RoundFacts Pandas Sim Frame FrameSpec FrameProofs SimSpec SimProofs SimLemmas SimLimit Ind Signal Api IndSpec SeriesFacts Lengths Causal IndFacts Shape ApiSpec ApiCheck ApiProofs ApiLemmas RangeSpec Cells RangeFacts RangeMore Publish RangeApi ValueSpec ValueFacts ValueMore Recur ValueApi CumulApi.
From Verif Require Import SteadySig FormulaSpec Starts Formula Formula2 Formula3 Formula4 Line Formula5 Formula6 FormulaApi FlatFacts IdentFacts IdentApi SignalSpec SignalApi SignalApi2 SignalApi3 MirrorSpec MirrorFacts MirrorApi MirrorApi2 MirrorApi3 MirrorSar MirrorAll MirrorSignal OneWaySpec OneWay OneWayApi AdviceSpec AdviceApi QuietSpec QuietSim QuietApi BooksSpec Books BooksApi TurnSpec TurnSim TurnApi MirrorDays.
Import ListNotations.
Open Scope list_scope. Open Scope string_scope. Open Scope Qc_scope.
Notation price := SignalSpec.price.

Lemma limited_cell o c raw b ob k nm j : wf_raw raw -> NoDup (dates raw) -> snd (construct o c (RFrame raw) (VBool b)) = Ok ob -> is_dpo (ob_ind ob) = false -> (k < days_given ob)%nat -> (j <= k)%nat ->
  shown nm (limited k ob) j = shown nm ob j.
Proof.
  intros W N H D K J. pose proof (limited_shown o c raw b ob k W N H D K) as DS. pose proof (construct_sound _ _ _ _ _ W H) as (_ & _ & _ & SS & _ & _ & TI & _). specialize (TI (not_dpo _ D)). rewrite <- TI in SS.
  unfold shown, limited. unfold get_ti_data. cbn [ob_ti]. apply upto_cell; [exact SS|]. unfold days_shown, get_ti_data, limited in DS. cbn [ob_ti] in DS. rewrite DS. lia.
Qed.

Section Days.
  Variables (o : oracle) (raw raw' : rawframe) (b b' : bool) (ob ob' : obj) (m : Qc) (op h l cl v : nat -> Qc) (c : ctor).
  Hypothesis W : wf_raw raw. Hypothesis W' : wf_raw raw'. Hypothesis N : NoDup (dates raw). Hypothesis N' : NoDup (dates raw'). Hypothesis E : even_ticks m.
  Hypothesis T : twice c o raw raw' b b' ob ob'. Hypothesis TO : turned_over c m ob ob' op h l cl v.
  Hypothesis ORD : forall k, (k < days_given ob)%nat -> ordinary c (days_given ob) k op h l cl v.
  Hypothesis ND : is_dpo (asked c) = false.

  Lemma dpo_first : is_dpo (ob_ind ob) = false. Proof. rewrite (ind_asked o raw b ob W c (proj1 T)). exact ND. Qed.
  Lemma dpo_second : is_dpo (ob_ind ob') = false. Proof. rewrite (ind_asked o raw' b' ob' W' c (proj2 T)). exact ND. Qed.
  Lemma kept_turned name j : In name (kept c) -> (j < days_given ob)%nat -> given name ob' j = nsub (Fin m) (given name ob j).
  Proof.
    intros I J. destruct TO as (_ & _ & _ & _ & F & _). destruct c as [| | | | | | | | | | | | | | | | | | | | |p| | | | | | | | | | | | | | | | | | | | | | | | | | | | | | | | | | |] eqn:EC; cbn [kept In] in I; try contradiction; destruct I as [<-|[]].
    - specialize (F ltac:(cbn [asked required In]; auto 8)). pose proof (faces_less m j (days_given ob - 1) ob ob' "close" "close" cl ltac:(lia) F) as [K K'].
      rewrite (mass_average o raw b ob W _ cl (proj1 T) K), (mass_average o raw' b' ob' W' _ _ (proj2 T) K'). rewrite from_sub.
      apply (f_equal (from 8 j)), (f_equal Fin), (ema_mir m); intro; reflexivity.
    - specialize (F ltac:(cbn [asked required In]; auto 8)). pose proof (faces_less m j (days_given ob - 1) ob ob' "close" "close" cl ltac:(lia) F) as [K K'].
      rewrite (median_average o raw b ob W p _ cl (proj1 T) K), (median_average o raw' b' ob' W' p _ _ (proj2 T) K'). rewrite from_sub.
      apply (f_equal (from _ j)), (f_equal Fin), (ema_mir m); intro; reflexivity.
  Qed.
  Lemma limited_facing k : (k < days_given ob)%nat -> facing_objects o raw raw' b b' m c (limited k ob) (limited k ob').
  Proof.
    intro K. assert (K' : (k < days_given ob')%nat) by (destruct TO as [-> _]; exact K).
    destruct (limited_days o c raw b ob k W N (proj1 T) K) as [DG GV]. destruct (limited_days o c raw' b' ob' k W' N' (proj2 T) K') as [DG' GV'].
    pose proof (limited_shown o c raw b ob k W N (proj1 T) dpo_first K) as DS. pose proof (limited_shown o c raw' b' ob' k W' N' (proj2 T) dpo_second K') as DS'.
    split.
    - apply lim_working; [exact W|exact (proj1 T)].
    - apply lim_working; [exact W'|exact (proj2 T)].
    - congruence.
    - rewrite DS. lia.
    - intros name' name w I d D. unfold ago. rewrite DS, DS'.
      rewrite (limited_cell o c raw' b' ob' k name' (S k - d) W' N' (proj2 T) dpo_second K' ltac:(lia)), (limited_cell o c raw b ob k name (S k - d) W N (proj1 T) dpo_first K ltac:(lia)).
      apply (mirrored o raw raw' b b' ob ob' m op h l cl v W W' E c (S k - d) T TO ltac:(lia) (ORD (S k - d)%nat ltac:(lia)) name' name w I).
    - intros name I d D. unfold price. rewrite DG, DG', GV, GV' by lia. apply kept_turned; [exact I|lia].
    - intros I d D. unfold price. rewrite DG, DG', GV, GV' by lia. destruct TO as (_ & _ & _ & _ & F & _). destruct (F I) as [X Y]. assert (EX := X (S k - d)%nat ltac:(lia)). rewrite (Y (S k - d)%nat ltac:(lia)), EX. split; [reflexivity|]. split; [discriminate|]. eexists. reflexivity.
    - intros p EC. unfold ago. rewrite DS. replace (S k - 1)%nat with k by lia.
      rewrite !(limited_cell o c raw b ob k _ k W N (proj1 T) dpo_first K (le_n k)).
      destruct T as [T1 _]. destruct TO as (_ & _ & FH & FL & _). rewrite EC in T1, FH, FL.
      destruct (FH ltac:(cbn [asked required In]; auto 8)) as [X _]. destruct (FL ltac:(cbn [asked required In]; auto 8)) as [Y _].
      destruct (projection_bands_shown o raw b ob W p k h l T1) as [HU HL]; [intros j J; apply X; lia|intros j J; apply Y; lia|].
      rewrite HU, HL. unfold from. destruct (_ <? _)%nat; [auto|]. split; right; eexists; reflexivity.
  Qed.
  Lemma day_reversed k s : (k < days_given ob)%nat -> even_handed c (limited k ob) -> get_ti_signal (limited k ob) = Ok s -> get_ti_signal (limited k ob') = Ok (opposite s).
  Proof. intros K EH G. exact (turned_signal o raw raw' b b' _ _ m c ND (limited_facing k K) EH s G). Qed.

  Variables (cv cv' : rawval) (me me' fa fa' : pyval) (f f' : Qc) (st st' : sim) (sts sts' : stats).
  Hypothesis R : snd (get_ti_simulation ob cv me fa) = Ok (st, sts).
  Hypothesis R' : snd (get_ti_simulation ob' cv' me' fa') = Ok (st', sts').
  Hypothesis EH : forall k, (k < days_given ob)%nat -> even_handed c (limited k ob).
  Lemma run_reversed k s : (k < days_given ob)%nat -> x_signal (row_ (data st) k) = Some s -> x_signal (row_ (data st') k) = Some (opposite s).
  Proof.
    intros K G. pose proof (construct_sound _ _ _ _ _ W (proj1 T)) as SO. pose proof (construct_sound _ _ _ _ _ W' (proj2 T)) as SO'.
    destruct (simulation_inv _ _ _ _ _ _ SO R) as (ps & m0 & x & a & A & -> & L & _ & P). destruct (simulation_inv _ _ _ _ _ _ SO' R') as (ps' & m0' & x' & a' & A' & -> & L' & _ & P').
    assert (LT : List.length (rows (ob_ti ob)) = days_given ob) by (rewrite ti_shorter by (auto using not_dpo, dpo_first); unfold days_given; apply len_index).
    assert (LT' : List.length (rows (ob_ti ob')) = days_given ob') by (rewrite ti_shorter by (auto using not_dpo, dpo_second); unfold days_given; apply len_index).
    assert (LC : List.length ps = days_given ob) by (rewrite (start_len _ _ _ _ _ _ _ A); unfold days_given; apply len_index).
    assert (LC' : List.length ps' = days_given ob') by (rewrite (start_len _ _ _ _ _ _ _ A'); unfold days_given; apply len_index).
    assert (DD : days_given ob' = days_given ob) by (destruct TO as [-> _]; reflexivity).
    destruct (simulate_rows ps m0 x a k ltac:(lia) ltac:(lia)) as (Y & _). destruct (simulate_rows ps' m0' x' a' k ltac:(lia) ltac:(lia)) as (Y' & _).
    unfold row_ in *. rewrite Y in G. rewrite Y'. injection G as G. pose proof (day_reversed k _ K (EH k K) (P k ltac:(lia))) as Q. rewrite (P' k ltac:(lia)) in Q. injection Q as ->. rewrite G. reflexivity.
  Qed.
  Hypothesis FA : number_of fa = Some (Fin f).
  Hypothesis FA' : number_of fa' = Some (Fin f').
  Hypothesis ME : me = VNone.
  Hypothesis ME' : me' = VNone.
  Hypothesis PR : forall k, (k < days_given ob)%nat -> isfin (x_stock (row_ (data st) k)) = true /\ x_stock (row_ (data st') k) = nsub (Fin m) (x_stock (row_ (data st) k)).
  Lemma run_earns_the_same : (forall i, (i < days_given ob)%nat -> x_earnings (row_ (data st') i) = x_earnings (row_ (data st) i)) /\
    last_earnings sts' = last_earnings sts /\ last_open_long_positions sts' = last_open_short_positions sts /\ last_open_short_positions sts' = last_open_long_positions sts /\
    number_of_buy_signals sts' = number_of_sell_signals sts /\ number_of_sell_signals sts' = number_of_buy_signals sts.
  Proof.
    pose proof run_reversed as RR. subst me me'.
    exact (reported_turned o o c c raw raw' b b' ob ob' cv cv' fa fa' f f' m st st' sts sts' W W' (proj1 T) (proj2 T) dpo_first dpo_second FA FA' R R' (proj1 TO) PR RR).
  Qed.
End Days.
