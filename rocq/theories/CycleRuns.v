(** * CycleRuns: reported simulations on a market that repeats itself. *)
From Coq Require Import ZArith QArith Qcanon Bool List String PeanoNat Lia.
From Verif Require Import Num NumFacts RoundFacts Pandas Sim Frame FrameSpec FrameProofs SimSpec SimProofs SimLemmas SimLimit Ind Signal Api IndSpec SeriesFacts Lengths Causal IndFacts Shape ApiSpec ApiCheck ApiProofs ApiLemmas RangeSpec Cells RangeFacts RangeMore Publish RangeApi ValueSpec ValueFacts ValueMore Recur ValueApi CumulApi.
From Verif Require Import FormulaSpec OrderFacts SignalSpec SignalApi SignalApi2 OneWaySpec OneWay OneWayApi AdviceSpec AdviceApi QuietSpec QuietSim BooksSpec Books BooksApi MirrorSpec TurnSpec TurnSim ResumeSim MemorySpec MemoryApi RecentSpec RecentSig ResumeApi RepeatSpec RepeatApi CycleSim.
Import ListNotations.
Open Scope list_scope. Open Scope string_scope. Open Scope Qc_scope.

Section Run.
  Variables (o : oracle) (c : ctor) (raw : rawframe) (b : bool) (ob : obj) (cv : rawval) (me fa : pyval) (f : Qc) (st : sim) (sts : stats) (k p : nat).
  Hypothesis W : wf_raw raw.
  Hypothesis H : snd (construct o c (RFrame raw) (VBool b)) = Ok ob.
  Hypothesis ND : is_dpo (ob_ind ob) = false.
  Hypothesis FA : number_of fa = Some (Fin f).
  Hypothesis R : snd (get_ti_simulation ob cv me fa) = Ok (st, sts).
  Hypothesis PR : forall j, (j < days_given ob)%nat -> isfin (x_stock (row_ (data st) j)) = true.
  Hypothesis SAME : forall j, (k <= j)%nat -> (j + p < days_given ob)%nat -> x_stock (row_ (data st) (j + p)) = x_stock (row_ (data st) j) /\ x_signal (row_ (data st) (j + p)) = x_signal (row_ (data st) j).
  Hypothesis OL : open_longs (data st) k = 0%nat. Hypothesis OS : open_shorts (data st) k = 0%nat.
  Hypothesis OL' : open_longs (data st) (k + p) = 0%nat. Hypothesis OS' : open_shorts (data st) (k + p) = 0%nat.
  Notation earned j := (qv (x_earnings (row_ (data st) j))).
  Lemma reported_cycles t i : (k <= i)%nat -> (i + t * p < days_given ob)%nat -> let r := row_ (data st) (i + t * p) in let r' := row_ (data st) i in
    act (data st) (i + t * p) = act (data st) i /\ x_exposure r = x_exposure r' /\ x_portfolio_value r = x_portfolio_value r' /\ open_longs (data st) (i + t * p) = open_longs (data st) i /\ open_shorts (data st) (i + t * p) = open_shorts (data st) i /\
    x_earnings r = Fin (earned i + nq t * (earned (k + p) - earned k)).
  Proof.
    intros KI I. destruct (one_run_limited o c raw b ob cv me fa f st sts W H ND FA R PR) as (ps & m & a & E & _ & F1 & LP & LA & M).
    rewrite E in OL, OS, OL', OS'. cbv zeta. rewrite E. apply (all_cycles ps m f a k p F1 ltac:(lia)); auto; try lia.
    - intros j KJ J. destruct (SAME j KJ ltac:(lia)) as [P _]. rewrite E, !(sp_stock ps m f) in P by (auto; lia). congruence.
    - intros j KJ J. destruct (SAME j KJ ltac:(lia)) as [_ P]. rewrite E, !(sp_signal ps m f) in P by (auto; lia). congruence.
  Qed.
End Run.
Lemma market_cycles o c raw b ob n cv me fa f st sts k p t i : wf_raw raw -> NoDup (dates raw) -> snd (construct o c (RFrame raw) (VBool b)) = Ok ob ->
  (nested (asked c) = true -> gapless (required (asked c)) raw) -> repeats p ob -> advice_reach (asked c) = Some n -> (n <= k)%nat ->
  number_of fa = Some (Fin f) -> snd (get_ti_simulation ob cv me fa) = Ok (st, sts) ->
  (forall j, (j < days_given ob)%nat -> isfin (x_stock (row_ (data st) j)) = true) ->
  (forall j, (k <= j)%nat -> (j + p < days_given ob)%nat -> x_stock (row_ (data st) (j + p)) = x_stock (row_ (data st) j)) ->
  open_longs (data st) k = 0%nat -> open_shorts (data st) k = 0%nat -> open_longs (data st) (k + p) = 0%nat -> open_shorts (data st) (k + p) = 0%nat ->
  (k <= i)%nat -> (i + t * p < days_given ob)%nat -> let r := row_ (data st) (i + t * p) in let r' := row_ (data st) i in let earned j := qv (x_earnings (row_ (data st) j)) in
    act (data st) (i + t * p) = act (data st) i /\ x_exposure r = x_exposure r' /\ x_portfolio_value r = x_portfolio_value r' /\ open_longs (data st) (i + t * p) = open_longs (data st) i /\ open_shorts (data st) (i + t * p) = open_shorts (data st) i /\
    x_earnings r = Fin (earned i + nq t * (earned (k + p)%nat - earned k)).
Proof.
  intros W N H G RP RE NK FA R PR SP OL OS OL' OS' KI I. cbv zeta.
  assert (ND : is_dpo (ob_ind ob) = false).
  { rewrite (ind_asked o raw b ob W c H). destruct (is_dpo (asked c)) eqn:D; [|reflexivity]. destruct (asked c); try discriminate D. discriminate RE. }
  apply (reported_cycles o c raw b ob cv me fa f st sts k p W H ND FA R PR); auto.
  intros j KJ J. split; [apply SP; auto|].
  pose proof (cycle_runs o c raw b ob p 1 j W H G RP ltac:(lia) n cv me fa st sts N RE ltac:(lia) R) as Q. rewrite Nat.mul_1_l in Q. exact Q.
Qed.
