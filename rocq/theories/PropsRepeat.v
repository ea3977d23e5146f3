(** * PropsRepeat: the same days again (C125).

    [same_days n ob k ob' k']: the days k, k-1, ..., k-n of the one and k', k'-1, ..., k'-n of the other data are the same; [repeats p ob]: every
    row is the row p days before ([RepeatSpec.v]).  [lookback], [advice_reach]: how far a value and an advice look back ([MemorySpec.v],
    [RecentSpec.v]); [limited k ob]: the object as the simulation sees it on day k ([Api.v]). *)
From Coq Require Import ZArith QArith Qcanon Bool List String PeanoNat Lia.
From Verif Require Import Num NumFacts Pandas Sim Frame FrameSpec SimSpec Ind Signal Api IndSpec ApiSpec RangeSpec PropsApi PropsSim PropsRange ValueSpec PropsValue PropsCumul FormulaSpec PropsFormula SignalSpec PropsSignal MemorySpec PropsMemory RecentSpec PropsRecent RepeatSpec RepeatApi.
Import ListNotations.
Open Scope list_scope. Open Scope string_scope. Open Scope nat_scope.

(** ** C125 The same days lead to the same values and to the same advice, whenever they come *)
Theorem C125_values o c raw raw' b b' ob ob' k k' n name m : wf_raw raw -> wf_raw raw' ->
  snd (construct o c (RFrame raw) (VBool b)) = Ok ob -> snd (construct o c (RFrame raw') (VBool b')) = Ok ob' ->
  (nested (ob_ind ob) = true -> gapless (required (ob_ind ob)) raw /\ gapless (required (ob_ind ob)) raw') -> is_dpo (ob_ind ob) = false ->
  same_days n ob k ob' k' -> n <= k < days_given ob -> n <= k' < days_given ob' ->
  In name (cols (get_ti_data ob)) -> lookback (ob_ind ob) name = Some m -> m <= n -> shown name ob' k' = shown name ob k.
Proof. exact (same_days_values o c raw raw' b b' ob ob' k k' n name m). Qed.
Print Assumptions C125_values.
Theorem C125_advice o c raw raw' b b' ob ob' k k' n : wf_raw raw -> wf_raw raw' -> NoDup (dates raw) -> NoDup (dates raw') ->
  snd (construct o c (RFrame raw) (VBool b)) = Ok ob -> snd (construct o c (RFrame raw') (VBool b')) = Ok ob' ->
  (nested (asked c) = true -> gapless (required (asked c)) raw /\ gapless (required (asked c)) raw') ->
  advice_reach (asked c) = Some n -> same_days n ob k ob' k' -> n <= k < days_given ob -> n <= k' < days_given ob' ->
  get_ti_signal (limited k' ob') = get_ti_signal (limited k ob).
Proof. exact (same_days_advice o c raw raw' b b' ob ob' k k' n). Qed.
Print Assumptions C125_advice.
(** whatever the two simulations trade at *)
Theorem C125_simulations o c raw raw' b b' ob ob' k k' n cv cv' me me' fa fa' st st' sts sts' : wf_raw raw -> wf_raw raw' -> NoDup (dates raw) -> NoDup (dates raw') ->
  snd (construct o c (RFrame raw) (VBool b)) = Ok ob -> snd (construct o c (RFrame raw') (VBool b')) = Ok ob' ->
  (nested (asked c) = true -> gapless (required (asked c)) raw /\ gapless (required (asked c)) raw') ->
  advice_reach (asked c) = Some n -> same_days n ob k ob' k' -> n <= k < days_given ob -> n <= k' < days_given ob' ->
  snd (get_ti_simulation ob cv me fa) = Ok (st, sts) -> snd (get_ti_simulation ob' cv' me' fa') = Ok (st', sts') ->
  x_signal (row_ (data st') k') = x_signal (row_ (data st) k).
Proof. exact (same_days_runs o c raw raw' b b' ob ob' k k' n cv cv' me me' fa fa' st st' sts sts'). Qed.
Print Assumptions C125_simulations.
(** so on a market that repeats itself every p days the values repeat themselves, and so does the advice, every day *)
Theorem C125_cycle_of_values o c raw b ob p t k name m : wf_raw raw -> snd (construct o c (RFrame raw) (VBool b)) = Ok ob ->
  (nested (ob_ind ob) = true -> gapless (required (ob_ind ob)) raw) -> is_dpo (ob_ind ob) = false -> repeats p ob ->
  In name (cols (get_ti_data ob)) -> lookback (ob_ind ob) name = Some m -> m <= k -> k + t * p < days_given ob -> shown name ob (k + t * p) = shown name ob k.
Proof. exact (cycle_of_values o c raw b ob p t k name m). Qed.
Print Assumptions C125_cycle_of_values.
Theorem C125_cycle_of_advice o c raw b ob p t k n : wf_raw raw -> NoDup (dates raw) -> snd (construct o c (RFrame raw) (VBool b)) = Ok ob ->
  (nested (asked c) = true -> gapless (required (asked c)) raw) -> repeats p ob ->
  advice_reach (asked c) = Some n -> n <= k -> k + t * p < days_given ob -> get_ti_signal (limited (k + t * p) ob) = get_ti_signal (limited k ob).
Proof. exact (cycle_of_advice o c raw b ob p t k n). Qed.
Print Assumptions C125_cycle_of_advice.

(** eight days, five times over; and the last sixteen days of the season after three other days *)
Definition tide := map (fun j => nth (j mod 8) (firstn 8 season) (0, 0, 0, 0, 0)%Z) (seq 0 40).
Definition elsewhere := ([(70, 75, 65, 66, 40); (66, 68, 50, 51, 30); (51, 59, 50, 58, 20)]%Z ++ skipn 20 season)%list.
Definition on_tide (c : ctor) := the (made ora0 c (bars tide) true). Definition moved_to (c : ctor) := the (made ora0 c (bars elsewhere) true).
Definition recurring := [cBB (VInt 4) (VFloat (D 1 1)); cENV (VInt 4) (VFloat (D 1 10)); cPB (VInt 4); cCCI (VInt 4); cPCH (VInt 4); cCMF (VInt 4); cCMO (VInt 3); cEMV (VInt 3); cFOSC (VInt 4); cIMI (VInt 3); cLRI (VInt 4); cLRS (VInt 4); cTSF (VInt 4); cMFI; cWC;
  cMA (VInt 4) (VStr "simple"); cMA (VInt 4) (VStr "time_series"); cMA (VInt 3) (VStr "triangular"); cPOSC (VInt 5) (VInt 2); cPRC (VInt 3); cVRC (VInt 3); cQS (VInt 3); cSO (VInt 3) (VInt 1) (VInt 3) (VStr "simple"); cSWI; cVOSC (VInt 5) (VInt 2)].
Definition says (ob : obj) (k : nat) := get_ti_signal (limited k ob).
Definition equal_b (x y : num) : bool := match x, y with Fin a, Fin b => qeqb a b | _, _ => false end.
Lemma equal_ok x y : equal_b x y = true -> x = y.
Proof. destruct x, y; cbn; try discriminate. intro E. apply qeqb_iff in E. congruence. Qed.
Definition repeats_b (p : nat) (ob : obj) : bool := forallb (fun x => forallb (fun j => equal_b (given x ob (j + p)) (given x ob j)) (seq 0 (days_given ob - p))) (required (ob_ind ob)).
Lemma repeats_ok p ob : repeats_b p ob = true -> repeats p ob.
Proof.
  intros H x j I J. unfold repeats_b in H. rewrite forallb_forall in H. specialize (H x I). rewrite forallb_forall in H. apply equal_ok, H, in_seq. lia.
Qed.
Definition same_days_b (n : nat) (ob : obj) (k : nat) (ob' : obj) (k' : nat) : bool := forallb (fun x => forallb (fun j => equal_b (given x ob' (k' - j)) (given x ob (k - j))) (seq 0 (S n))) (required (ob_ind ob)).
Lemma same_days_ok n ob k ob' k' : same_days_b n ob k ob' k' = true -> same_days n ob k ob' k'.
Proof.
  intros H x j I J. unfold same_days_b in H. rewrite forallb_forall in H. specialize (H x I). rewrite forallb_forall in H. apply equal_ok, H, in_seq. lia.
Qed.
(** every indicator of the list: the market repeats itself, so does its advice from day [reach c] on; and the last day of the season comes again elsewhere *)
Definition recurs (c : ctor) : bool :=
  match made ora0 c (bars tide) true, made ora0 c (bars elsewhere) true, made ora0 c (bars season) true with
  | Some a, Some e, Some s => Nat.eqb (days_given a) 40 && repeats_b 8 a && same_days_b (reach c) s 35 e 18 && forallb (fun k => same_sig (says a (k + 3 * 8)) (says a k)) (seq (reach c) 8) && same_sig (says e 18) (says s 35)
  | _, _, _ => false
  end.
Example C125_case : (forall c, In c recurring -> made ora0 c (bars tide) true = Some (on_tide c) /\ days_given (on_tide c) = 40 /\ repeats 8 (on_tide c) /\
    made ora0 c (bars elsewhere) true = Some (moved_to c) /\ made ora0 c (bars season) true = Some (whole c) /\ same_days (reach c) (whole c) 35 (moved_to c) 18) /\
  forallb recurs recurring = true /\
  List.length (filter (fun c => existsb (fun k => negb (same_sig (says (on_tide c) k) (Ok Hold))) (seq (reach c) 8)) recurring) = 21.
Proof.
  assert (Q : forallb recurs recurring = true) by (vm_compute; reflexivity). split; [|split; [exact Q|vm_compute; reflexivity]].
  intros c I. rewrite forallb_forall in Q. specialize (Q c I). unfold recurs in Q. unfold on_tide, moved_to, whole.
  destruct (made ora0 c (bars tide) true) as [a|]; [|discriminate Q]. destruct (made ora0 c (bars elsewhere) true) as [e|]; [|discriminate Q]. destruct (made ora0 c (bars season) true) as [s|]; [|discriminate Q].
  cbn [the]. repeat (apply andb_true_iff in Q as [Q ?]). apply Nat.eqb_eq in Q. repeat split; auto using repeats_ok, same_days_ok.
Qed.
(** the 4-day mean on the tide: the same three times, day by day *)
Example C125_values_case : let ob := on_tide (cMA (VInt 4) (VStr "simple")) in lookback (ob_ind ob) "ma-simple" = Some 3 /\
  map (ValueSpec.shown "ma-simple" ob) (seq 3 8) = map Fin (map r4 [zq 154 / zq 4; zq 154 / zq 4; zq 166 / zq 4; zq 166 / zq 4; zq 168 / zq 4; zq 168 / zq 4; zq 156 / zq 4; zq 156 / zq 4]%Qc) /\
  map (ValueSpec.shown "ma-simple" ob) (seq (3 + 4 * 8) 5) = map (ValueSpec.shown "ma-simple" ob) (seq 3 5) /\ ValueSpec.shown "ma-simple" ob 2 <> ValueSpec.shown "ma-simple" ob (2 + 8).
Proof. cbv zeta. split; [vm_compute; reflexivity|]. split; [vm_compute; reflexivity|]. split; [vm_compute; reflexivity|vm_compute; discriminate]. Qed.
(** the others do not come back to the same value, weeks later *)
Definition drifting := [(cADL, "adl", 31); (cATR, "atr", 31); (cOBV, "obv", 31); (cPVT, "pvt", 31); (cNVI, "nvi", 31); (cPVI, "pvi", 31); (cMACD, "macd", 31); (cMA (VInt 3) (VStr "exponential"), "ma-exponential", 14); (cTEMA (VInt 3), "tema", 15);
  (cRSI (VInt 3), "rsi", 28); (cRVI (VInt 3), "rvi", 31); (cWS (VInt 3), "ws", 25); (cCO, "co", 31); (cSMI (VInt 5) (VInt 3) (VInt 3), "smi", 27); (cDMI, "+di", 31); (cVCH (VInt 3) (VInt 3), "vch", 23); (cRMI (VInt 3) (VInt 2), "rmi", 27); (cRI (VInt 3) (VInt 2), "ri", 14)].
Definition drifts (q : ctor * string * nat) : bool := let '(c, name, k) := q in
  match made ora0 c (bars tide) true with
  | Some ob => repeats_b 8 ob && match ValueSpec.shown name ob k, ValueSpec.shown name ob (k + 8) with Fin a, Fin a' => negb (qeqb a a') | _, _ => false end
  | None => false
  end.
Theorem C125_every_value_refuted : forall c name k, In (c, name, k) drifting -> exists ob a a',
  snd (construct ora0 c (RFrame (bars tide)) (VBool true)) = Ok ob /\ repeats 8 ob /\ ValueSpec.shown name ob k = Fin a /\ ValueSpec.shown name ob (k + 8) = Fin a' /\ a <> a'.
Proof.
  assert (H : forallb drifts drifting = true) by (vm_compute; reflexivity). rewrite forallb_forall in H. intros c name k I. specialize (H _ I). unfold drifts, made in H.
  destruct (snd (construct ora0 c (RFrame (bars tide)) (VBool true))) as [ob|]; [|discriminate H]. apply andb_true_iff in H as [A B].
  destruct (ValueSpec.shown name ob k) as [| | |a] eqn:E1; try discriminate B. destruct (ValueSpec.shown name ob (k + 8)) as [| | |a'] eqn:E2; try discriminate B.
  exists ob, a, a'. repeat split; auto using repeats_ok. intro E. apply qeqb_iff in E. rewrite E in B. discriminate B.
Qed.
Print Assumptions C125_every_value_refuted.
