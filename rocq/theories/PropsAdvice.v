(** * PropsAdvice: the values an advice rests on (C113).

    [working o c raw b st]: st is the object the constructor returned, or that object limited to a day by the simulation.
    [ago name st d]: the value published d days before the end (1: the last day), [price] the same for the input ([SignalSpec.v]).
    [looks_at i], [looks_at_closes i]: the tables of the cells each rule needs; [nothing_shown st]: all columns are missing on the last day ([AdviceSpec.v]). *)
From Coq Require Import ZArith QArith Qcanon Bool List String PeanoNat Lia.
From Verif Require Import Num NumFacts Pandas Sim Frame FrameSpec SimSpec Ind Signal Api IndSpec ApiSpec RangeSpec PropsApi PropsSim PropsRange ValueSpec PropsValue PropsCumul FormulaSpec PropsFormula SignalSpec PropsSignal PropsSignal2 MirrorSpec PropsMirror GapSpec PropsMissing AdviceSpec AdviceApi.
Import ListNotations.
Open Scope list_scope. Open Scope string_scope. Open Scope nat_scope.

(** ** C113 An advice rests on values that are there *)
Theorem C113_rests_on_values o c raw b st s : working o c raw b st -> get_ti_signal st = Ok s -> s <> Hold ->
  (forall name d, In (name, d) (looks_at (asked c)) -> (d <= days_shown st /\ ago name st d <> NaN)) /\
  (forall d, In d (looks_at_closes (asked c)) -> (d <= days_given st /\ SignalSpec.price "close" st d <> NaN)).
Proof. exact (advice_rests o raw b st c s). Qed.
Print Assumptions C113_rests_on_values.
(** nothing is advised for a day for which nothing is published *)
Theorem C113_nothing_shown o c raw b st s : working o c raw b st -> deaf c = false -> nothing_shown st -> get_ti_signal st = Ok s -> s = Hold.
Proof. exact (nothing_advised o raw b st c s). Qed.
Print Assumptions C113_nothing_shown.
(** and the simulation opens no position on such a day, whatever prices it is given *)
Theorem C113_no_trade o c raw b ob cv me fa st sts k : wf_raw raw -> NoDup (dates raw) -> snd (construct o c (RFrame raw) (VBool b)) = Ok ob -> is_dpo (ob_ind ob) = false -> deaf c = false ->
  snd (get_ti_simulation ob cv me fa) = Ok (st, sts) -> k < days_given ob -> (forall name, In name (cols (get_ti_data ob)) -> shown name ob k = NaN) ->
  x_signal (nth k (data st) simrow0) = Some Hold /\ x_action (nth k (data st) simrow0) = Some ANone.
Proof. exact (no_trade o c raw b ob cv me fa st sts k). Qed.
Print Assumptions C113_no_trade.

(** ** cases *)
Definition silent_on (c : ctor) (k : nat) : bool := match made ora0 c (bars season) true with Some ob => forallb (fun n => isnan (ago n (limited k ob) 1)) (cols (get_ti_data ob)) && forallb (fun n => isnan (shown n ob k)) (cols (get_ti_data ob)) && Nat.ltb k (days_given ob) && negb (is_dpo (ob_ind ob)) && signal_is Hold (get_ti_signal (limited k ob)) | None => false end.
Definition opening_rows (c : ctor) (n : nat) := map (fun r => (x_signal r, x_action r)) (firstn n (match made ora0 c (bars season) true with Some ob => match snd (get_ti_simulation ob (RFrame (bars season)) VNone (VFloat (D 3 2))) with Ok (st, _) => data st | _ => [] end | None => [] end)).
Example C113_case :
  shows (cCMF (VInt 4)) season [(34, Buy); (15, Sell)] = true /\ looks_at (asked (cCMF (VInt 4))) = [("cmf", 1); ("cmf", 2)] /\ looks_at_closes (asked (cCMF (VInt 4))) = [1; 3] /\
  shows (cWR (VInt 4)) season [(12, Buy); (6, Sell)] = true /\ shows (cRI (VInt 4) (VInt 2)) season [(14, Buy); (15, Sell)] = true /\
  NoDup (dates (bars season)) /\
  forallb (fun c => silent_on c 2) [cBB (VInt 5) (VFloat (F 2)); cSO (VInt 3) (VInt 3) (VInt 2) (VStr "simple"); cPCH (VInt 4); cDMI; cCMO (VInt 4); cMA (VInt 4) (VStr "simple"); cVHF (VInt 4); cUO] = true /\
  opening_rows (cPCH (VInt 4)) 3 = repeat (Some Hold, Some ANone) 3 /\ existsb (fun r => match snd r with Some ALong => true | _ => false end) (opening_rows (cPCH (VInt 4)) 36) = true.
Proof.
  split; [vm_compute; reflexivity|]. split; [vm_compute; reflexivity|]. split; [vm_compute; reflexivity|]. split; [vm_compute; reflexivity|]. split; [vm_compute; reflexivity|].
  split; [vm_compute; repeat constructor; cbn; intuition discriminate|]. repeat split; vm_compute; reflexivity.
Qed.

(** ** where it is not so *)
Lemma blanked_wf rs (g : nat -> list num -> list num) : (forall k l, List.length (g k l) = List.length l) -> let f := bars rs in
  wf_raw (mkRaw (r_datetime f) (r_labels f) (r_numeric f) (map (fun p => let '(k, r) := p in (fst r, g k (snd r))) (combine (seq 0 (List.length (r_rows f))) (r_rows f)))).
Proof.
  intros G f. split; [reflexivity|]. intros r H. cbn [r_rows r_labels] in *. apply in_map_iff in H as ([k r0] & <- & I). apply in_combine_r in I. cbn [snd]. rewrite G. exact (proj2 (bars_wf rs) r0 I).
Qed.
(** Williams accumulation buys on a day for which it has no value: thirty days around 10, yesterday without prices, today at 8 *)
Definition after_gap : list (Z * Z * Z * Z * Z) := (repeat (10, 12, 9, 10, 5)%Z 30 ++ [(8, 9, 7, 8, 5)]%Z)%list.
Theorem C113_williams_refuted : exists raw st, working ora0 cWAD raw false st /\ nothing_shown st /\ get_ti_signal st = Ok Buy.
Proof.
  exists (without 29 (bars after_gap)), (the (made ora0 cWAD (without 29 (bars after_gap)) false)). split; [|split; [|vm_compute; reflexivity]].
  - split; [apply (blanked_wf after_gap (fun k l => if Nat.eqb k 29 then map (fun _ => NaN) l else l)); intros k l; destruct (Nat.eqb k 29); rewrite ?map_length; reflexivity|].
    eexists. split; [|left; reflexivity]. vm_compute. reflexivity.
  - intros name I. cbn in I. destruct I as [<-|[]]. vm_compute. reflexivity.
Qed.
Print Assumptions C113_williams_refuted.
(** the range indicator buys or sells on days without a close *)
Definition without_close (i : nat) (f : rawframe) : rawframe :=
  mkRaw (r_datetime f) (r_labels f) (r_numeric f)
    (map (fun p => let '(k, r) := p in (fst r, if Nat.eqb k i then map (fun q => if Nat.eqb (fst q) 3 then NaN else snd q) (combine (seq 0 (List.length (snd r))) (snd r)) else snd r)) (combine (seq 0 (List.length (r_rows f))) (r_rows f))).
Lemma without_close_wf i rs : wf_raw (without_close i (bars rs)).
Proof.
  apply (blanked_wf rs (fun k l => if Nat.eqb k i then map (fun q => if Nat.eqb (fst q) 3 then NaN else snd q) (combine (seq 0 (List.length l)) l) else l)).
  intros k l. destruct (Nat.eqb k i); [|reflexivity]. rewrite map_length, combine_length, seq_length. apply Nat.min_id.
Qed.
Theorem C113_range_indicator_refuted : exists raw st raw' st', let c := cRI (VInt 4) (VInt 2) in
  working ora0 c raw false st /\ SignalSpec.price "close" st 1 = NaN /\ get_ti_signal st = Ok Buy /\ working ora0 c raw' false st' /\ SignalSpec.price "close" st' 1 = NaN /\ get_ti_signal st' = Ok Sell.
Proof.
  set (on k := limited k (the (made ora0 (cRI (VInt 4) (VInt 2)) (without_close k (bars season)) false))). exists (without_close 15 (bars season)), (on 15), (without_close 13 (bars season)), (on 13). intro c.
  assert (W : forall k, match made ora0 c (without_close k (bars season)) false with Some _ => True | None => False end -> working ora0 c (without_close k (bars season)) false (on k)).
  { intros k M. split; [apply without_close_wf|]. unfold on, made in *. fold c. destruct (snd (construct ora0 c (RFrame (without_close k (bars season))) (VBool false))) as [ob|] eqn:E; [|destruct M]. exists ob. split; [reflexivity|right; exists k; reflexivity]. }
  split; [apply W; vm_compute; exact I|]. split; [vm_compute; reflexivity|]. split; [vm_compute; reflexivity|]. split; [apply W; vm_compute; exact I|]. split; vm_compute; reflexivity.
Qed.
Print Assumptions C113_range_indicator_refuted.
