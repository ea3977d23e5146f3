(** * LapRuns: reported simulations without a limit on a market that repeats itself. *)
From Coq Require Import ZArith QArith Qcanon Bool List String PeanoNat Lia.
From Verif Require Import Num NumFacts RoundFacts Pandas Sim Frame FrameSpec FrameProofs SimSpec SimProofs SimLemmas SimLimit Ind Signal Api IndSpec SeriesFacts Lengths Causal IndFacts Shape ApiSpec ApiCheck ApiProofs ApiLemmas RangeSpec Cells RangeFacts RangeMore Publish RangeApi ValueSpec ValueFacts ValueMore Recur ValueApi CumulApi.
From Verif Require Import FormulaSpec OrderFacts SignalSpec SignalApi SignalApi2 OneWaySpec OneWay OneWayApi AdviceSpec AdviceApi QuietSpec QuietSim BooksSpec Books BooksApi MirrorSpec TurnSpec TurnSim ResumeSim MemorySpec MemoryApi RecentSpec RecentSig ResumeApi RepeatSpec RepeatApi CycleSim CycleRuns LapSim.
Import ListNotations.
Open Scope list_scope. Open Scope string_scope. Open Scope Qc_scope.

Lemma market_laps o c raw b ob n cv fa f st sts k p t i : wf_raw raw -> NoDup (dates raw) -> snd (construct o c (RFrame raw) (VBool b)) = Ok ob ->
  (nested (asked c) = true -> gapless (required (asked c)) raw) -> repeats p ob -> advice_reach (asked c) = Some n -> (n <= k)%nat ->
  number_of fa = Some (Fin f) -> snd (get_ti_simulation ob cv VNone fa) = Ok (st, sts) ->
  (forall j, (j < days_given ob)%nat -> isfin (x_stock (row_ (data st) j)) = true) ->
  (forall j, (k <= j)%nat -> (j + p < days_given ob)%nat -> x_stock (row_ (data st) (j + p)) = x_stock (row_ (data st) j)) ->
  (1 <= k)%nat -> (1 <= p)%nat -> (k + p <= i)%nat -> (i + t * p < days_given ob)%nat ->
  let d := data st in let earned j := qv (x_earnings (row_ d j)) in let exposed j := qv (x_exposure (row_ d j)) in let longs j := nq (open_longs d j) in let shorts j := nq (open_shorts d j) in let s := (k + p)%nat in
  earned (i + t * p)%nat = earned i + nq t * (earned (s + p)%nat - earned s) /\ exposed (i + t * p)%nat = exposed i + nq t * (exposed (s + p)%nat - exposed s) /\
  longs (i + t * p)%nat = longs i + nq t * (longs (s + p)%nat - longs s) /\ shorts (i + t * p)%nat = shorts i + nq t * (shorts (s + p)%nat - shorts s).
Proof.
  intros W N H G RP RE NK FA R PR SP K1 P1 KI I. cbv zeta.
  assert (ND : is_dpo (ob_ind ob) = false).
  { rewrite (ind_asked o raw b ob W c H). destruct (is_dpo (asked c)) eqn:D; [|reflexivity]. destruct (asked c); try discriminate D. discriminate RE. }
  destruct (one_run_limited o c raw b ob cv VNone fa f st sts W H ND FA R PR) as (ps & m & a & E & _ & F1 & LP & LA & M).
  cbn in M. injection M as <-.
  assert (SS : forall j, (k <= j)%nat -> (j + p < days_given ob)%nat -> x_signal (row_ (data st) (j + p)) = x_signal (row_ (data st) j)).
  { intros j KJ J. pose proof (cycle_runs o c raw b ob p 1 j W H G RP ltac:(lia) n cv VNone fa st sts N RE ltac:(lia) R) as Q. rewrite Nat.mul_1_l in Q. exact Q. }
  rewrite E in *. apply (run_laps ps f a k p); auto; try lia.
  - intros j KJ J. specialize (SP j KJ ltac:(lia)). rewrite !(sp_stock ps None f) in SP by (auto; lia). congruence.
  - intros j KJ J. specialize (SS j KJ ltac:(lia)). rewrite !(sp_signal ps None f) in SS by (auto; lia). congruence.
Qed.
