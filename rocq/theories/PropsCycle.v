(** * PropsCycle: running totals and recursive averages on a market that repeats itself (C126).

    [repeats p ob]: every row is the row p days before ([RepeatSpec.v]); [obv_line], [pvt_line], [index_line]: the textbook lines ([ValueSpec.v]);
    [inside lo w k f]: up to day k, f lies between lo and lo + w; [remains c m]: how much of w a recursive average keeps after m days
    ([SwaySpec.v]). *)
From Coq Require Import ZArith QArith Qcanon Bool List String PeanoNat Lia.
From Verif Require Import Num NumFacts Pandas Sim Frame FrameSpec SimSpec Ind Signal Api IndSpec ApiSpec RangeSpec PropsApi PropsSim PropsRange ValueSpec PropsValue PropsCumul FormulaSpec PropsFormula SignalSpec PropsSignal MirrorSpec SwaySpec MemorySpec PropsMemory RecentSpec PropsRecent RepeatSpec PropsRepeat CycleApi.
Import ListNotations.
Open Scope list_scope. Open Scope string_scope. Open Scope Qc_scope.
Notation shown := ValueSpec.shown. Notation near := SwaySpec.near.

(** ** C126 Running totals gain the same every cycle, recursive averages settle *)
Theorem C126_on_balance_volume o raw b ob p t k c v : wf_raw raw -> repeats p ob ->
  known (given "close" ob) (k + t * p) c -> known (given "volume" ob) (k + t * p) v -> (1 <= t)%nat -> snd (construct o cOBV (RFrame raw) (VBool b)) = Ok ob ->
  exists now gain, shown "obv" ob k = Fin now /\ shown "obv" ob p = Fin gain /\ shown "obv" ob (k + t * p) = Fin (now + nq t * gain).
Proof. exact (obv_repeats o raw b ob p t k c v). Qed.
Print Assumptions C126_on_balance_volume.
Theorem C126_price_and_volume_trend o raw b ob p t k c v : wf_raw raw -> repeats p ob ->
  known (given "close" ob) (k + t * p) c -> known (given "volume" ob) (k + t * p) v -> (forall j, (j < k + t * p)%nat -> c j <> 0) ->
  snd (construct o cPVT (RFrame raw) (VBool b)) = Ok ob -> shown "pvt" ob (k + t * p) = Fin (r4 (pvt_line c v k + nq t * pvt_line c v p)).
Proof. exact (pvt_repeats o raw b ob p t k c v). Qed.
Print Assumptions C126_price_and_volume_trend.
(** the volume indices are multiplied by the same factor every cycle *)
Theorem C126_negative_volume_index o raw b ob p t k c v : wf_raw raw -> repeats p ob ->
  known (given "close" ob) (k + t * p) c -> known (given "volume" ob) (k + t * p) v -> (forall j, (j < k + t * p)%nat -> c j <> 0) ->
  snd (construct o cNVI (RFrame raw) (VBool b)) = Ok ob ->
  let line := index_line (fun before now => qltb now before) c v in shown "nvi" ob (k + t * p) = Fin (r4 (line k * (line p / zq 1000) ^ t)).
Proof. exact (nvi_repeats o raw b ob p t k c v). Qed.
Print Assumptions C126_negative_volume_index.
Theorem C126_positive_volume_index o raw b ob p t k c v : wf_raw raw -> repeats p ob ->
  known (given "close" ob) (k + t * p) c -> known (given "volume" ob) (k + t * p) v -> (forall j, (j < k + t * p)%nat -> c j <> 0) ->
  snd (construct o cPVI (RFrame raw) (VBool b)) = Ok ob ->
  let line := index_line (fun before now => qltb before now) c v in shown "pvi" ob (k + t * p) = Fin (r4 (line k * (line p / zq 1000) ^ t)).
Proof. exact (pvi_repeats o raw b ob p t k c v). Qed.
Print Assumptions C126_positive_volume_index.
(** exponential, Wilder's, double and triple averages and the MACD: from day k on, all cycles show the value of day k but for a share that vanishes with k *)
Theorem C126_averages_settle o raw b ob c p t k m lo w cl name a q u : wf_raw raw -> snd (construct o c (RFrame raw) (VBool b)) = Ok ob -> repeats p ob -> In "close" (required (ob_ind ob)) ->
  known (given "close" ob) (k + t * p) cl -> inside lo w (k + t * p) cl -> In (name, a, q, u) (remains c m) -> (a + m <= k)%nat ->
  near (q * w + units4 u) (shown name ob k) (shown name ob (k + t * p)).
Proof. exact (settles o raw b ob c p t k m lo w cl name a q u). Qed.
Print Assumptions C126_averages_settle.

(** the tide of C125: eight days, five times over *)
Definition cell_of (x : num) : Qc := match x with Fin q => q | _ => 0 end.
Definition all_known (x : nat -> num) : bool := forallb (fun j => isfin (x j)) (seq 0 40).
Lemma all_known_ok x : all_known x = true -> known x 39 (fun j => cell_of (x j)).
Proof. intros H j J. unfold all_known in H. rewrite forallb_forall in H. specialize (H j ltac:(apply in_seq; lia)). destruct (x j); try discriminate H. reflexivity. Qed.
Definition totals := [cOBV; cPVT; cNVI; cPVI].
Definition tidal (c : ctor) : bool := match made ora0 c (bars tide) true with Some ob => repeats_b 8 ob && all_known (given "close" ob) && all_known (given "volume" ob) && forallb (fun j => negb (equal_b (given "close" ob j) (F 0))) (seq 0 40) | None => false end.
Example C126_case : (forall c, In c totals -> made ora0 c (bars tide) true = Some (on_tide c) /\ repeats 8 (on_tide c) /\
    exists cl v, known (given "close" (on_tide c)) 39 cl /\ known (given "volume" (on_tide c)) 39 v /\ forall j, (j < 39)%nat -> cl j <> 0) /\
  map (shown "obv" (on_tide cOBV)) [7; 8; 15; 23; 31; 39]%nat = [F 154; F 247; F 401; F 648; F 895; F (154 + 4 * 247)] /\
  map (shown "pvt" (on_tide cPVT)) [7; 8; 15; 39]%nat = [D 121935 10000; D 168435 10000; D 290370 10000; D 795675 10000] /\
  map (shown "nvi" (on_tide cNVI)) [7; 8; 15; 39]%nat = [D 7894737 10000; D 7894737 10000; D 6232687 10000; D 3066820 10000].
Proof.
  split; [|split; [vm_compute; reflexivity|split; vm_compute; reflexivity]].
  assert (Q : forallb tidal totals = true) by (vm_compute; reflexivity). intros c I. rewrite forallb_forall in Q. specialize (Q c I). unfold tidal in Q. unfold on_tide.
  destruct (made ora0 c (bars tide) true) as [ob|]; [|discriminate Q]. cbn [the]. apply andb_true_iff in Q as [Q Z]. apply andb_true_iff in Q as [Q V]. apply andb_true_iff in Q as [Q C].
  split; [reflexivity|]. split; [apply repeats_ok, Q|]. exists (fun j => cell_of (given "close" ob j)), (fun j => cell_of (given "volume" ob j)).
  split; [apply all_known_ok, C|]. split; [apply all_known_ok, V|]. intros j J E. rewrite forallb_forall in Z. specialize (Z j ltac:(apply in_seq; lia)).
  rewrite (all_known_ok _ C j ltac:(lia)) in Z. rewrite E in Z. vm_compute in Z. discriminate Z.
Qed.
(** closes between 36 and 48: the 3-day exponential average of day 7 stays within 12/32 + 0.0001 of itself, in truth 0.0058 *)
Example C126_settling_case : let c := cMA (VInt 3) (VStr "exponential") in let ob := on_tide c in
  made ora0 c (bars tide) true = Some ob /\ repeats 8 ob /\ In ("ma-exponential", 2, (1 - span 3) ^ 5, 1%Z) (remains c 5) /\ (1 - span 3) ^ 5 = 1 / zq 32 /\
  forallb (fun j => let q := cell_of (given "close" ob j) in isfin (given "close" ob j) && qleb (zq 36) q && qleb q (zq 48)) (seq 0 40) = true /\
  map (shown "ma-exponential" ob) [7; 15; 23; 31; 39]%nat = [D 405156 10000; D 405098 10000; D 405098 10000; D 405098 10000; D 405098 10000].
Proof.
  cbv zeta. split; [|split; [apply repeats_ok; vm_compute; reflexivity|split; [left; reflexivity|split; [apply Qc_is_canon; vm_compute; reflexivity|split; vm_compute; reflexivity]]]].
  assert (M : forall x : option obj, match x with Some _ => true | None => false end = true -> x = Some (the x)) by (intros []; [reflexivity|discriminate]). apply M. vm_compute. reflexivity.
Qed.
