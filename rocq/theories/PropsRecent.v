(** * PropsRecent: the days an advice rests on (C123).

    [advice_reach i]: how many days before its own day ([RecentSpec.v]); [since t raw], [earlier t raw], [gapless]: the caller's data
    without the rows dated before t, how many rows these are, no missing cell ([MemorySpec.v]); [limited k ob]: the object as the
    simulation sees it on day k ([Api.v]). *)
From Coq Require Import ZArith QArith Qcanon Bool List String PeanoNat Lia.
From Verif Require Import Num NumFacts Pandas Sim Frame FrameSpec SimSpec Ind Signal Api IndSpec ApiSpec RangeSpec PropsApi PropsSim PropsRange ValueSpec PropsValue PropsCumul FormulaSpec PropsFormula SignalSpec PropsSignal MemorySpec PropsMemory RecentSpec RecentSig.
Import ListNotations.
Open Scope list_scope. Open Scope string_scope. Open Scope nat_scope.

(** ** C123 The advice of a day rests on the recent days only *)
(** cutting off old rows does not change what is advised now *)
Theorem C123_advice_now o c raw b ob ob' t n : wf_raw raw ->
  snd (construct o c (RFrame raw) (VBool b)) = Ok ob -> snd (construct o c (RFrame (since t raw)) (VBool b)) = Ok ob' ->
  (b = true \/ nested (ob_ind ob) = true -> gapless (required (ob_ind ob)) raw) ->
  advice_reach (asked c) = Some n -> n < days_given ob' -> get_ti_signal ob' = get_ti_signal ob.
Proof. exact (fun W H H' G R => cut_whole o c raw b ob ob' t n W H H' G R). Qed.
Print Assumptions C123_advice_now.
(** ... nor what was advised on any day with enough days left before it ... *)
Theorem C123_advice_of_a_day o c raw b ob ob' t n k : wf_raw raw -> NoDup (dates raw) ->
  snd (construct o c (RFrame raw) (VBool b)) = Ok ob -> snd (construct o c (RFrame (since t raw)) (VBool b)) = Ok ob' ->
  (b = true \/ nested (ob_ind ob) = true -> gapless (required (ob_ind ob)) raw) ->
  advice_reach (asked c) = Some n -> n <= k -> k < days_given ob' -> get_ti_signal (limited k ob') = get_ti_signal (limited (earlier t raw + k) ob).
Proof. exact (fun W N H H' G R => cut_day o c raw b ob ob' t n W N H H' G R k). Qed.
Print Assumptions C123_advice_of_a_day.
(** ... so the two simulations signal the same from then on, whatever their prices, limits and factors *)
Theorem C123_simulations o c raw b ob ob' t n cv cv' me me' fa fa' st st' sts sts' k : wf_raw raw -> NoDup (dates raw) ->
  snd (construct o c (RFrame raw) (VBool b)) = Ok ob -> snd (construct o c (RFrame (since t raw)) (VBool b)) = Ok ob' ->
  (b = true \/ nested (ob_ind ob) = true -> gapless (required (ob_ind ob)) raw) ->
  advice_reach (asked c) = Some n -> snd (get_ti_simulation ob cv me fa) = Ok (st, sts) -> snd (get_ti_simulation ob' cv' me' fa') = Ok (st', sts') ->
  n <= k -> k < days_given ob' -> x_signal (row_ (data st') k) = x_signal (row_ (data st) (earlier t raw + k)).
Proof. exact (fun W N H H' G R => cut_runs o c raw b ob ob' t n W N H H' G R cv cv' me me' fa fa' st st' sts sts' k). Qed.
Print Assumptions C123_simulations.
(** two histories that agree from a date on lead to the same advice, however they differ before *)
Theorem C123_rewritten_history o c raw1 raw2 b ob1 ob2 ob t n : wf_raw raw1 -> wf_raw raw2 ->
  snd (construct o c (RFrame raw1) (VBool b)) = Ok ob1 -> snd (construct o c (RFrame raw2) (VBool b)) = Ok ob2 ->
  since t raw1 = since t raw2 -> snd (construct o c (RFrame (since t raw1)) (VBool b)) = Ok ob ->
  (b = true \/ nested (asked c) = true -> gapless (required (asked c)) raw1 /\ gapless (required (asked c)) raw2) ->
  advice_reach (asked c) = Some n -> n < days_given ob -> get_ti_signal ob1 = get_ti_signal ob2.
Proof. exact (rewritten o c raw1 raw2 b ob1 ob2 ob t n). Qed.
Print Assumptions C123_rewritten_history.
(** On Balance Volume starts anew at zero and still advises the same, after three days *)
Theorem C123_on_balance_volume o raw b ob ob' t cx vx : wf_raw raw ->
  snd (construct o cOBV (RFrame raw) (VBool b)) = Ok ob -> snd (construct o cOBV (RFrame (since t raw)) (VBool b)) = Ok ob' ->
  unfilled ["close"; "volume"] b raw ->
  known (given "close" ob) (days_given ob - 1) cx -> known (given "volume" ob) (days_given ob - 1) vx -> 3 <= days_given ob' -> get_ti_signal ob' = get_ti_signal ob.
Proof. exact (cut_obv o raw b ob ob' t cx vx). Qed.
Print Assumptions C123_on_balance_volume.

Definition same_sig (a b : res signal) : bool := match a, b with Ok Buy, Ok Buy | Ok Sell, Ok Sell | Ok Hold, Ok Hold => true | _, _ => false end.
Definition whole (c : ctor) := the (made ora0 c (bars season) true). Definition shorter (t : Z) (c : ctor) := the (made ora0 c (since t (bars season)) true).
Definition agree (t : Z) (c : ctor) (k : nat) : bool := same_sig (get_ti_signal (limited k (shorter t c))) (get_ti_signal (limited (earlier t (bars season) + k) (whole c))).
Definition reaching := [cBB (VInt 4) (VFloat (D 1 1)); cENV (VInt 4) (VFloat (D 1 10)); cPB (VInt 4); cCCI (VInt 4); cPCH (VInt 4); cCMF (VInt 4); cCMO (VInt 3); cEMV (VInt 3); cFOSC (VInt 4); cIMI (VInt 3); cLRI (VInt 4); cLRS (VInt 4); cTSF (VInt 4); cMFI; cWC;
  cMA (VInt 4) (VStr "simple"); cMA (VInt 4) (VStr "time_series"); cMA (VInt 3) (VStr "triangular"); cPOSC (VInt 5) (VInt 2); cPRC (VInt 3); cVRC (VInt 3); cQS (VInt 3); cSO (VInt 3) (VInt 1) (VInt 3) (VStr "simple"); cSWI; cVOSC (VInt 5) (VInt 2); cWAD; cICH].
(** the season without its first six days: 30 days are left *)
Definition reach (c : ctor) : nat := match advice_reach (asked c) with Some n => n | None => 99 end.
Definition speaks (t : Z) (c : ctor) : bool := existsb (fun k => negb (same_sig (get_ti_signal (limited k (shorter t c))) (Ok Hold))) (seq (reach c) (30 - reach c)).
Definition gapless_b (cs : list string) (f : rawframe) : bool := forallb (fun c => forallb (fun r => negb (isnan (raw_cell f c r))) (r_rows f)) cs.
Lemma gapless_ok cs f : gapless_b cs f = true -> gapless cs f.
Proof. intros H c r I J E. unfold gapless_b in H. rewrite forallb_forall in H. specialize (H c I). rewrite forallb_forall in H. specialize (H r J). rewrite E in H. discriminate H. Qed.
Example C123_case : NoDup (dates (bars season)) /\ earlier 7 (bars season) = 6 /\ gapless ["open"; "high"; "low"; "close"; "volume"] (bars season) /\
  (forall c, In c reaching -> made ora0 c (bars season) true = Some (whole c) /\ made ora0 c (since 7 (bars season)) true = Some (shorter 7 c) /\ days_given (shorter 7 c) = 30 /\
    forallb (agree 7 c) (seq (reach c) (30 - reach c)) = true) /\
  List.length (filter (speaks 7) reaching) = 24 /\
  map (fun c => (reach c, agree 7 c (reach c - 1))) [cPCH (VInt 4); cCCI (VInt 4); cENV (VInt 4) (VFloat (D 1 10)); cIMI (VInt 3); cMFI; cWC; cVRC (VInt 3); cSWI] = [(4, false); (3, false); (3, false); (3, false); (1, false); (1, false); (5, false); (2, false)].
Proof.
  split; [vm_compute; repeat constructor; cbn; intuition discriminate|]. split; [reflexivity|]. split; [apply gapless_ok; vm_compute; reflexivity|]. split; [|split; vm_compute; reflexivity].
  intros c I. assert (Q : forallb (fun c => match made ora0 c (bars season) true, made ora0 c (since 7 (bars season)) true with Some _, Some _ => Nat.eqb (days_given (shorter 7 c)) 30 && forallb (agree 7 c) (seq (reach c) (30 - reach c)) | _, _ => false end) reaching = true) by (vm_compute; reflexivity).
  rewrite forallb_forall in Q. specialize (Q c I). unfold whole, shorter in *. destruct (made ora0 c (bars season) true) as [x|]; [|discriminate Q]. destruct (made ora0 c (since 7 (bars season)) true) as [y|]; [|discriminate Q].
  cbn [the] in *. apply andb_true_iff in Q as [Q1 Q2]. apply Nat.eqb_eq in Q1. repeat split; assumption.
Qed.
Example C123_volume_case : made ora0 cOBV (bars season) true = Some (whole cOBV) /\ made ora0 cOBV (since 7 (bars season)) true = Some (shorter 7 cOBV) /\
  known (given "close" (whole cOBV)) 35 (fun j => qv (given "close" (whole cOBV) j)) /\ known (given "volume" (whole cOBV)) 35 (fun j => qv (given "volume" (whole cOBV) j)) /\ agree 7 cOBV 29 = true.
Proof.
  assert (M : forall x : option obj, match x with Some _ => true | None => false end = true -> x = Some (the x)) by (intros []; [reflexivity|discriminate]).
  split; [apply M; vm_compute; reflexivity|]. split; [apply M; vm_compute; reflexivity|]. clear M.
  assert (Q : forall x : nat -> num, forallb (fun j => isfin (x j)) (seq 0 36) = true -> known x 35 (fun j => qv (x j))).
  { intros x H j J. rewrite forallb_forall in H. specialize (H j ltac:(apply in_seq; lia)). destruct (x j); try discriminate H. reflexivity. }
  split; [apply Q; vm_compute; reflexivity|]. split; [apply Q; vm_compute; reflexivity|vm_compute; reflexivity].
Qed.
(** the others: what they advise months later still depends on the first two days *)
Definition remembering := [(cADL, 22); (cATR, 12); (cMACD, 32); (cUO, 28); (cMOM (VInt 3), 10); (cTEMA (VInt 3), 12); (cRVI (VInt 3), 10)].
Theorem C123_every_advice_refuted : forall c k, In (c, k) remembering -> exists ob ob' s s',
  snd (construct ora0 c (RFrame (bars season)) (VBool true)) = Ok ob /\ snd (construct ora0 c (RFrame (since 3 (bars season))) (VBool true)) = Ok ob' /\ k < days_given ob' /\
  get_ti_signal (limited k ob') = Ok s' /\ get_ti_signal (limited (2 + k) ob) = Ok s /\ s <> s'.
Proof.
  assert (H : forallb (fun q => let '(c, k) := q in match made ora0 c (bars season) true, made ora0 c (since 3 (bars season)) true with
    | Some ob, Some ob' => Nat.ltb k (days_given ob') && match get_ti_signal (limited k ob'), get_ti_signal (limited (2 + k) ob) with Ok a, Ok b => negb (same_sig (Ok a) (Ok b)) | _, _ => false end | _, _ => false end) remembering = true) by (vm_compute; reflexivity).
  rewrite forallb_forall in H. intros c k I. specialize (H (c, k) I). cbv beta iota in H. unfold made in H.
  destruct (snd (construct ora0 c (RFrame (bars season)) (VBool true))) as [ob|]; [|discriminate H]. destruct (snd (construct ora0 c (RFrame (since 3 (bars season))) (VBool true))) as [ob'|]; [|discriminate H].
  apply andb_true_iff in H as [A B]. apply Nat.ltb_lt in A.
  destruct (get_ti_signal (limited k ob')) as [a|] eqn:E1; [|discriminate B]. destruct (get_ti_signal (limited (2 + k) ob)) as [a'|] eqn:E2; [|discriminate B].
  exists ob, ob', a', a. repeat split; auto. intros ->. destruct a; discriminate B.
Qed.
Print Assumptions C123_every_advice_refuted.
