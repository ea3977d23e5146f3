(** * ResumeApi: two reported simulations that own nothing on some day and see the same from then on. *)
From Coq Require Import ZArith QArith Qcanon Bool List String PeanoNat Lia.
From Verif Require Import Num NumFacts RoundFacts Pandas Sim Frame FrameSpec FrameProofs SimSpec SimProofs SimLemmas SimLimit Ind Signal Api IndSpec SeriesFacts Lengths Causal IndFacts Shape ApiSpec ApiCheck ApiProofs ApiLemmas RangeSpec Cells RangeFacts RangeMore Publish RangeApi ValueSpec ValueFacts ValueMore Recur ValueApi CumulApi.
From Verif Require Import FormulaSpec OrderFacts SignalSpec SignalApi SignalApi2 OneWaySpec OneWay OneWayApi AdviceSpec AdviceApi QuietSpec QuietSim BooksSpec Books BooksApi MirrorSpec TurnSpec TurnSim ResumeSim MemorySpec MemoryApi RecentSpec RecentSig.
Import ListNotations.
Open Scope list_scope. Open Scope string_scope. Open Scope Qc_scope.

Section Two.
  Variables (o o' : oracle) (c c' : ctor) (raw raw' : rawframe) (b b' : bool) (ob ob' : obj) (cv cv' : rawval) (me fa : pyval) (f : Qc) (st st' : sim) (sts sts' : stats) (e k : nat).
  Hypothesis W : wf_raw raw. Hypothesis W' : wf_raw raw'.
  Hypothesis H : snd (construct o c (RFrame raw) (VBool b)) = Ok ob.
  Hypothesis H' : snd (construct o' c' (RFrame raw') (VBool b')) = Ok ob'.
  Hypothesis ND : is_dpo (ob_ind ob) = false. Hypothesis ND' : is_dpo (ob_ind ob') = false.
  Hypothesis FA : number_of fa = Some (Fin f).
  Hypothesis R : snd (get_ti_simulation ob cv me fa) = Ok (st, sts).
  Hypothesis R' : snd (get_ti_simulation ob' cv' me fa) = Ok (st', sts').
  Hypothesis DG : days_given ob = (e + days_given ob')%nat.
  Hypothesis PR : forall j, (j < days_given ob)%nat -> isfin (x_stock (row_ (data st) j)) = true.
  Hypothesis PR' : forall j, (j < days_given ob')%nat -> isfin (x_stock (row_ (data st') j)) = true.
  Hypothesis SAME : forall j, (k <= j < days_given ob')%nat -> x_stock (row_ (data st') j) = x_stock (row_ (data st) (e + j)) /\ x_signal (row_ (data st') j) = x_signal (row_ (data st) (e + j)).
  Hypothesis OL : open_longs (data st) (e + k) = 0%nat. Hypothesis OS : open_shorts (data st) (e + k) = 0%nat.
  Hypothesis OL' : open_longs (data st') k = 0%nat. Hypothesis OS' : open_shorts (data st') k = 0%nat.
  Lemma reported_resumed i : (k <= i < days_given ob')%nat -> let r := row_ (data st) (e + i) in let r' := row_ (data st') i in
    act (data st) (e + i) = act (data st') i /\ x_exposure r = x_exposure r' /\ x_portfolio_value r = x_portfolio_value r' /\ open_longs (data st) (e + i) = open_longs (data st') i /\ open_shorts (data st) (e + i) = open_shorts (data st') i /\
    nsub (x_earnings r) (x_earnings (row_ (data st) (e + k))) = nsub (x_earnings r') (x_earnings (row_ (data st') k)).
  Proof.
    intro I. destruct (one_run_limited o c raw b ob cv me fa f st sts W H ND FA R PR) as (ps & m & a & E & _ & F1 & LP & LA & M).
    destruct (one_run_limited o' c' raw' b' ob' cv' me fa f st' sts' W' H' ND' FA R' PR') as (ps' & m' & a' & E' & _ & _ & LP' & LA' & M').
    assert (m' = m) by congruence. subst m'.
    assert (EP : skipn (e + k) ps = skipn k ps').
    { apply (nth_ext _ _ 0 0); [rewrite !skipn_length; lia|]. rewrite skipn_length. intros j J. rewrite !nth_skip. destruct (SAME (k + j)%nat ltac:(lia)) as [P _]. rewrite E, E', !(sp_stock _ m) in P by (auto; lia). replace (e + k + j)%nat with (e + (k + j))%nat by lia. congruence. }
    assert (EA : skipn (e + k) a = skipn k a').
    { apply (nth_ext _ _ Hold Hold); [rewrite !skipn_length; lia|]. rewrite skipn_length. intros j J. rewrite !nth_skip. destruct (SAME (k + j)%nat ltac:(lia)) as [_ P]. rewrite E, E', !(sp_signal _ m) in P by (auto; lia). replace (e + k + j)%nat with (e + (k + j))%nat by lia. congruence. }
    rewrite E in OL, OS. rewrite E' in OL', OS'. cbv zeta. rewrite E, E'.
    pose proof (runs_resumed ps ps' m f a a' (e + k) k F1 ltac:(lia) ltac:(lia) OL OS OL' OS' EP EA (i - k) ltac:(lia)) as Q. cbv zeta in Q.
    replace (e + k + (i - k))%nat with (e + i)%nat in Q by lia. replace (k + (i - k))%nat with i in Q by lia. exact Q.
  Qed.
End Two.
Lemma history_resumed o c raw b ob ob' t n cv cv' me fa f st st' sts sts' k i : wf_raw raw -> NoDup (dates raw) ->
  snd (construct o c (RFrame raw) (VBool b)) = Ok ob -> snd (construct o c (RFrame (since t raw)) (VBool b)) = Ok ob' ->
  (b = true \/ nested (ob_ind ob) = true -> gapless (required (ob_ind ob)) raw) ->
  advice_reach (asked c) = Some n -> number_of fa = Some (Fin f) -> snd (get_ti_simulation ob cv me fa) = Ok (st, sts) -> snd (get_ti_simulation ob' cv' me fa) = Ok (st', sts') ->
  (forall j, (j < days_given ob)%nat -> isfin (x_stock (row_ (data st) j)) = true) ->
  (forall j, (j < days_given ob')%nat -> x_stock (row_ (data st') j) = x_stock (row_ (data st) (earlier t raw + j))) ->
  (n <= k)%nat -> open_longs (data st) (earlier t raw + k) = 0%nat -> open_shorts (data st) (earlier t raw + k) = 0%nat -> open_longs (data st') k = 0%nat -> open_shorts (data st') k = 0%nat ->
  (k <= i < days_given ob')%nat -> let r := row_ (data st) (earlier t raw + i) in let r' := row_ (data st') i in
    act (data st) (earlier t raw + i) = act (data st') i /\ x_exposure r = x_exposure r' /\ x_portfolio_value r = x_portfolio_value r' /\ open_longs (data st) (earlier t raw + i) = open_longs (data st') i /\ open_shorts (data st) (earlier t raw + i) = open_shorts (data st') i /\
    nsub (x_earnings r) (x_earnings (row_ (data st) (earlier t raw + k))) = nsub (x_earnings r') (x_earnings (row_ (data st') k)).
Proof.
  intros W N H H' G RE FA R R' PR SP NK OL OS OL' OS' I. destruct (cut_given o c raw b ob ob' t W H H' G) as [DD _]. destruct (cut_dpo o c raw b ob ob' t n W H H' RE) as [D1 D2].
  apply (reported_resumed o o c c raw (since t raw) b b ob ob' cv cv' me fa f st st' sts sts' (earlier t raw) k W (since_wf t raw W) H H' D1 D2 FA R R' DD PR); auto.
  - intros j J. rewrite SP by exact J. apply PR. lia.
  - intros j J. split; [apply SP; lia|]. apply (cut_runs o c raw b ob ob' t n W N H H' G RE cv cv' me me fa fa st st' sts sts' j R R'); lia.
Qed.
