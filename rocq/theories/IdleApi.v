(** * IdleApi: idle days in the simulations getTiSimulation returns. *)
From Coq Require Import ZArith QArith Qcanon Bool List String PeanoNat Lia.
From Verif Require Import Num NumFacts RoundFacts Pandas Sim Frame FrameSpec FrameProofs SimSpec SimProofs SimLemmas SimLimit Ind Signal Api IndSpec SeriesFacts Lengths Causal IndFacts Shape ApiSpec ApiCheck ApiProofs ApiLemmas RangeSpec Cells RangeFacts RangeMore Publish RangeApi ValueSpec ValueFacts ValueMore Recur ValueApi CumulApi.
From Verif Require Import FormulaSpec OrderFacts SignalSpec SignalApi SignalApi2 OneWaySpec OneWay OneWayApi AdviceSpec AdviceApi BooksSpec Books BooksApi IdleSpec IdleSim.
Import ListNotations.
Open Scope list_scope. Open Scope string_scope. Open Scope Qc_scope.

Lemma reported_stays o c raw b ob cv me fa f st sts k : wf_raw raw -> snd (construct o c (RFrame raw) (VBool b)) = Ok ob -> is_dpo (ob_ind ob) = false -> number_of fa = Some (Fin f) -> snd (get_ti_simulation ob cv me fa) = Ok (st, sts) ->
  (forall k, (k < days_given ob)%nat -> isfin (x_stock (row_ (data st) k)) = true) -> (S k < days_given ob)%nat ->
  x_signal (row_ (data st) (S k)) = Some Hold -> x_stock (row_ (data st) (S k)) = x_stock (row_ (data st) k) ->
  row_ (data st) (S k) = let r := row_ (data st) k in mkRow (Some Hold) (Some ANone) (x_stock r) (x_exposure r) (x_portfolio_value r) (x_earnings r) (x_balance r).
Proof.
  intros W H ND FA R PR K HO SA. destruct (one_run o c raw b ob cv me fa f st sts W H ND FA R PR) as (ps & m & a & E & _ & F1 & LP & LA & _). rewrite E in *.
  rewrite sp_signal in HO by (auto; lia). rewrite !sp_stock in SA by (auto; lia). apply stays_row; auto; try lia; congruence.
Qed.

Section Two.
  Variables (o o' : oracle) (c c' : ctor) (raw raw' : rawframe) (b b' : bool) (ob ob' : obj) (cv cv' : rawval) (me fa : pyval) (f : Qc) (st st' : sim) (sts sts' : stats) (k : nat).
  Hypothesis W : wf_raw raw.
  Hypothesis W' : wf_raw raw'.
  Hypothesis H : snd (construct o c (RFrame raw) (VBool b)) = Ok ob.
  Hypothesis H' : snd (construct o' c' (RFrame raw') (VBool b')) = Ok ob'.
  Hypothesis ND : is_dpo (ob_ind ob) = false.
  Hypothesis ND' : is_dpo (ob_ind ob') = false.
  Hypothesis FA : number_of fa = Some (Fin f).
  Hypothesis R : snd (get_ti_simulation ob cv me fa) = Ok (st, sts).
  Hypothesis R' : snd (get_ti_simulation ob' cv' me fa) = Ok (st', sts').
  Hypothesis DG : days_given ob = S (days_given ob').
  Hypothesis K : (S (S k) < days_given ob)%nat.
  Hypothesis PR : forall i, (i < days_given ob)%nat -> isfin (x_stock (row_ (data st) i)) = true.
  Hypothesis EARLY : forall i, (i <= k)%nat -> x_stock (row_ (data st') i) = x_stock (row_ (data st) i) /\ x_signal (row_ (data st') i) = x_signal (row_ (data st) i).
  Hypothesis LATE : forall i, (k < i < days_given ob')%nat -> x_stock (row_ (data st') i) = x_stock (row_ (data st) (S i)) /\ x_signal (row_ (data st') i) = x_signal (row_ (data st) (S i)).
  Hypothesis HO : x_signal (row_ (data st) (S k)) = Some Hold.
  Hypothesis EA : x_earnings (row_ (data st) (S k)) = x_earnings (row_ (data st) k).

  Lemma reported_idle : (forall i, (i <= k)%nat -> row_ (data st') i = row_ (data st) i) /\ (forall i, (k < i)%nat -> row_ (data st') i = row_ (data st) (S i)) /\
    sts' = mkStats (number_of_trading_days sts - 1) (number_of_buy_signals sts) (number_of_ignored_buy_signals sts) (number_of_sell_signals sts) (number_of_ignored_sell_signals sts)
      (last_stock_value sts) (last_exposure sts) (last_open_long_positions sts) (last_open_short_positions sts) (last_portfolio_value sts) (last_earnings sts) (final_balance sts).
  Proof.
    destruct (one_run_limited o c raw b ob cv me fa f st sts W H ND FA R PR) as (ps & m & a & E & ST & F1 & LP & LA & M).
    assert (PR' : forall i, (i < days_given ob')%nat -> isfin (x_stock (row_ (data st') i)) = true).
    { intros i I. destruct (Nat.le_gt_cases i k) as [L|L]; [destruct (EARLY i L) as [X _]|destruct (LATE i ltac:(lia)) as [X _]]; rewrite X; apply PR; lia. }
    destruct (one_run_limited o' c' raw' b' ob' cv' me fa f st' sts' W' H' ND' FA R' PR') as (ps' & m' & a' & E' & ST' & _ & LP' & LA' & M'). assert (m' = m) by congruence. subst m'.
    assert (LS : (List.length a <= List.length ps)%nat) by lia. assert (LS' : (List.length a' <= List.length ps')%nat) by lia. assert (KA : (S (S k) < List.length a)%nat) by lia.
    rewrite E in PR, EARLY, LATE, HO, EA. rewrite E' in EARLY, LATE.
    assert (EP : ps' = leave_out (S k) ps).
    { apply (nth_ext _ _ 0 0); [rewrite leave_length by lia; lia|]. intros j J. rewrite leave_nth by lia. destruct (Nat.ltb_spec j (S k)) as [L|L].
      - destruct (EARLY j ltac:(lia)) as [X _]. rewrite !sp_stock in X by (auto; lia). congruence.
      - destruct (LATE j ltac:(lia)) as [X _]. rewrite !sp_stock in X by (auto; lia). congruence. }
    assert (EA' : a' = leave_out (S k) a).
    { apply (nth_ext _ _ Hold Hold); [rewrite leave_length by lia; lia|]. intros j J. rewrite leave_nth by lia. destruct (Nat.ltb_spec j (S k)) as [L|L].
      - destruct (EARLY j ltac:(lia)) as [_ X]. rewrite !sp_signal in X by (auto; lia). congruence.
      - destruct (LATE j ltac:(lia)) as [_ X]. rewrite !sp_signal in X by (auto; lia). congruence. }
    rewrite sp_signal in HO by (auto; lia). assert (HO' : nth (S k) a Hold = Hold) by congruence. rewrite EP, EA' in E'. rewrite ST, ST', E, E'.
    split; [intros i I; apply idle_earlier; auto; lia|]. split; [intros i I; apply idle_later; auto; lia|]. apply idle_statistics; auto; lia.
  Qed.
End Two.
