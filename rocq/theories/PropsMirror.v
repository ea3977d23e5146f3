(** * PropsMirror: a market turned upside down.

    The prices x of a first input are m - x in a second one: what was a high is a low, what was a rise is a fall.
    [mirror_table c] lists, for constructor c, the published columns and how a number changes ([MirrorSpec]). *)
From Coq Require Import ZArith QArith Qcanon Bool List String PeanoNat Lia.
From Verif Require Import Num NumFacts Pandas Sim Frame FrameSpec Ind Signal Api IndSpec ApiSpec RangeSpec PropsApi PropsRange ValueSpec ValueApi PropsValue PropsCumul FormulaSpec FormulaApi PropsFormula SignalSpec SignalApi MirrorSpec MirrorApi MirrorAll MirrorSignal.
Import ListNotations.
Open Scope list_scope. Open Scope string_scope. Open Scope Qc_scope.

(** ** C80 Values of a market turned upside down *)
Theorem C80_mirrored_values o raw raw' b b' ob ob' m op h l cl v c k : wf_raw raw -> wf_raw raw' -> even_ticks m ->
  twice c o raw raw' b b' ob ob' -> turned_over c m ob ob' op h l cl v -> (k < days_given ob)%nat -> ordinary c (days_given ob) k op h l cl v ->
  forall name' name w, In (name', name, w) (mirror_table c) -> shown name' ob' k = follow w m (shown name ob k).
Proof. exact (fun W W' E => mirrored o raw raw' b b' ob ob' m op h l cl v W W' E c k). Qed.
Print Assumptions C80_mirrored_values.
(** the relative momentum index, on days when it is published on both sides *)
Theorem C80_relative_momentum o raw raw' b b' ob ob' m p q c k : wf_raw raw -> wf_raw raw' ->
  twice (cRMI p q) o raw raw' b b' ob ob' -> faces m k ob ob' "close" "close" c -> shown "rmi" ob k <> NaN -> shown "rmi" ob' k <> NaN ->
  shown "rmi" ob' k = nsub (F 100) (shown "rmi" ob k).
Proof. exact (fun W W' => mir_rmi o raw raw' b b' ob ob' m k W W' p q c). Qed.
Print Assumptions C80_relative_momentum.

(** ** C81 Signals of a market turned upside down *)
Theorem C81_reversed_signals o raw raw' b b' ob ob' m op h l cl v c : wf_raw raw -> wf_raw raw' -> even_ticks m ->
  twice c o raw raw' b b' ob ob' -> turned_over c m ob ob' op h l cl v -> (forall k, (k < days_given ob)%nat -> ordinary c (days_given ob) k op h l cl v) ->
  even_handed c ob -> forall s, get_ti_signal ob = Ok s -> get_ti_signal ob' = Ok (opposite s).
Proof. exact (fun W W' E => reversed o raw raw' b b' ob ob' m op h l cl v W W' E c). Qed.
Print Assumptions C81_reversed_signals.
(** rules that look only at the size of moves do not notice *)
Theorem C81_unchanged_signals o raw raw' b b' ob ob' m op h l cl v c : wf_raw raw -> wf_raw raw' -> even_ticks m ->
  twice c o raw raw' b b' ob ob' -> turned_over c m ob ob' op h l cl v -> c = cMFI \/ (exists p q, c = cVCH p q) ->
  forall s, get_ti_signal ob = Ok s -> get_ti_signal ob' = Ok s.
Proof. exact (fun W W' E => unchanged o raw raw' b b' ob ob' m op h l cl v W W' E c). Qed.
Print Assumptions C81_unchanged_signals.

(** ** what does not turn over, with witnesses *)
(** the days rs and the same days mirrored at m / 2 *)
Definition over (m : Z) (rs : list (Z * Z * Z * Z * Z)) := map (fun r => let '(o, h, l, c, v) := r in (m - o, m - l, m - h, m - c, v)%Z) rs.
Definition op_of (rs : list (Z * Z * Z * Z * Z)) j := let '(o, _, _, _, _) := nth j rs (0, 0, 0, 0, 0)%Z in zq o.
Definition hi_of (rs : list (Z * Z * Z * Z * Z)) j := let '(_, h, _, _, _) := nth j rs (0, 0, 0, 0, 0)%Z in zq h.
Definition lo_of (rs : list (Z * Z * Z * Z * Z)) j := let '(_, _, l, _, _) := nth j rs (0, 0, 0, 0, 0)%Z in zq l.
Definition cl_of (rs : list (Z * Z * Z * Z * Z)) j := let '(_, _, _, c, _) := nth j rs (0, 0, 0, 0, 0)%Z in zq c.
Definition vo_of (rs : list (Z * Z * Z * Z * Z)) j := let '(_, _, _, _, v) := nth j rs (0, 0, 0, 0, 0)%Z in zq v.
Definition pairing (c : ctor) (m : Z) (rs : list (Z * Z * Z * Z * Z)) (ob ob' : obj) : Prop :=
  wf_raw (bars rs) /\ wf_raw (bars (over m rs)) /\ even_ticks (zq m) /\ twice c ora0 (bars rs) (bars (over m rs)) true true ob ob' /\
  turned_over c (zq m) ob ob' (op_of rs) (hi_of rs) (lo_of rs) (cl_of rs) (vo_of rs).
Definition first_of c rs := the (made ora0 c (bars rs) true). Definition second_of c m rs := the (made ora0 c (bars (over m rs)) true).
Definition reads_as (x : nat -> num) (n : nat) (f : nat -> Qc) : bool := forallb (fun j => neqb (x j) (Fin (f j))) (seq 0 n).
Definition paired (c : ctor) (m : Z) (rs : list (Z * Z * Z * Z * Z)) : bool :=
  match made ora0 c (bars rs) true, made ora0 c (bars (over m rs)) true with
  | Some ob, Some ob' =>
    let n := S (days_given ob - 1) in
    let both name name' f := negb (existsb (String.eqb name) (required (asked c))) || reads_as (given name ob) n f && reads_as (given name' ob') n (fun j => zq m - f j) in
    (days_given ob' =? days_given ob)%nat && both "open" "open" (op_of rs) && both "high" "low" (hi_of rs) && both "low" "high" (lo_of rs) && both "close" "close" (cl_of rs) &&
    (negb (existsb (String.eqb "volume") (required (asked c))) || reads_as (given "volume" ob) n (vo_of rs) && reads_as (given "volume" ob') n (vo_of rs))
  | _, _ => false
  end.
Lemma reads_as_known x n f : reads_as x (S n) f = true -> known x n f.
Proof.
  unfold reads_as. rewrite forallb_forall. intros H j J. specialize (H j). rewrite in_seq in H. specialize (H ltac:(lia)).
  destruct (x j) as [| | |q]; try discriminate. f_equal. apply qeqb_iff. exact H.
Qed.
Lemma named name names : In name names -> existsb (String.eqb name) names = true.
Proof. intro I. apply existsb_exists. exists name. split; [exact I|apply String.eqb_refl]. Qed.
Lemma paired_ok c m rs : paired c m rs = true -> pairing c m rs (first_of c rs) (second_of c m rs).
Proof.
  unfold paired, first_of, second_of, made. destruct (snd (construct ora0 c (RFrame (bars rs)) (VBool true))) as [ob|] eqn:A; [|discriminate].
  destruct (snd (construct ora0 c (RFrame (bars (over m rs))) (VBool true))) as [ob'|] eqn:B; [|discriminate]. cbn [the]. cbv zeta. rewrite !andb_true_iff.
  intros [[[[[D O] H] L] C] V]. apply Nat.eqb_eq in D.
  assert (G : forall name x x' n f f', negb (existsb (String.eqb name) (required (asked c))) || reads_as x (S n) f && reads_as x' (S n) f' = true -> In name (required (asked c)) -> known x n f /\ known x' n f').
  { intros name x x' n f f' R I. rewrite (named _ _ I) in R. cbn [negb orb] in R. apply andb_true_iff in R as [R R']. split; apply reads_as_known; assumption. }
  split; [apply bars_wf|]. split; [apply bars_wf|]. split; [exists (5000 * m)%Z; apply Qc_is_canon; unfold zq; cbn [this Q2Qc]; rewrite !Qred_correct; unfold Qeq; cbn [Qnum Qden inject_Z]; lia|].
  split; [split; assumption|]. unfold turned_over. cbv zeta. split; [exact D|]. split; [exact (G "open" _ _ _ _ _ O)|]. split; [exact (G "high" _ _ _ _ _ H)|]. split; [exact (G "low" _ _ _ _ _ L)|]. split; [exact (G "close" _ _ _ _ _ C)|exact (G "volume" _ _ _ _ _ V)].
Qed.

(** the relative momentum index: missing after rises without a fall, but 0, not missing, after falls without a rise *)
Theorem C80_relative_momentum_refuted : exists c m rs ob ob' k, c = cRMI (VInt 2) (VInt 1) /\ pairing c m rs ob ob' /\ shown "rmi" ob k = NaN /\ same (shown "rmi" ob' k) (F 0).
Proof.
  exists (cRMI (VInt 2) (VInt 1)). exists 26%Z. exists [(1, 9, 1, 2, 1); (1, 9, 1, 5, 1); (1, 9, 1, 8, 1); (1, 9, 1, 9, 1)]%Z. eexists. eexists. exists 3%nat.
  split; [reflexivity|]. split; [apply paired_ok; vm_compute; reflexivity|]. split; [vm_compute; reflexivity|refine (proj1 (same_iff _ _) _); vm_compute; reflexivity].
Qed.
Print Assumptions C80_relative_momentum_refuted.
(** the parabolic SAR: a second day whose range holds the first one starts a rise on both sides *)
Theorem C80_parabolic_start_refuted : exists m rs ob ob' k, pairing cPSAR m rs ob ob' /\ ~ same (shown "sar" ob' k) (nsub (Fin (zq m)) (shown "sar" ob k)).
Proof.
  exists 26%Z. exists [(9, 12, 8, 11, 1); (9, 14, 6, 11, 1); (9, 15, 9, 11, 1); (9, 13, 9, 11, 1)]%Z. eexists. eexists. exists 0%nat.
  split; [apply paired_ok; vm_compute; reflexivity|]. intro S. apply same_iff in S. revert S. vm_compute. discriminate.
Qed.
Print Assumptions C80_parabolic_start_refuted.
(** the Klinger oscillator: a day with the typical price of the day before counts as a falling day on both sides *)
Theorem C80_klinger_tie_refuted : exists m rs ob ob' k, pairing cKO m rs ob ob' /\ (forall j, (1 <= j < days_given ob)%nat -> measure (hi_of rs) (lo_of rs) (cl_of rs) j <> 0) /\
  ~ same (shown "ko" ob' k) (nneg (shown "ko" ob k)).
Proof.
  pose (rs := map (fun j => let i := (Z.of_nat j)%Z in (11, 14 + Z.modulo i 2, 10, 12, 50 + i)%Z) (seq 0 57 ++ [56%nat; 57%nat])).
  exists 26%Z, rs, (first_of cKO rs), (second_of cKO 26 rs), 57%nat.
  split; [apply paired_ok; vm_compute; reflexivity|]. split.
  - assert (N : days_given (first_of cKO rs) = 59%nat) by (vm_compute; reflexivity). rewrite N. intros j J.
    assert (Q : forallb (fun j => negb (qeqb (measure (hi_of rs) (lo_of rs) (cl_of rs) j) 0)) (seq 1 58) = true) by (vm_compute; reflexivity).
    rewrite forallb_forall in Q. specialize (Q j). rewrite in_seq in Q. specialize (Q ltac:(lia)). apply negb_true_iff in Q. apply nonzero, Q.
  - intro S. apply same_iff in S. revert S. vm_compute. discriminate.
Qed.
Print Assumptions C80_klinger_tie_refuted.
(** rules that only ever buy: the mirrored market gives no signal *)
Theorem C81_one_sided_refuted : forall c, In c [cDEMA (VInt 2); cMA (VInt 2) (VStr "simple"); cTP (VInt 2)] ->
  exists m rs ob ob', pairing c m rs ob ob' /\ get_ti_signal ob = Ok Buy /\ get_ti_signal ob' = Ok Hold.
Proof.
  intros c [<-|[<-|[<-|[]]]].
  - exists 26%Z. exists (firstn 7 ten_days). eexists. eexists. split; [apply paired_ok; vm_compute; reflexivity|]. split; vm_compute; reflexivity.
  - exists 26%Z. exists (firstn 8 ten_days). eexists. eexists. split; [apply paired_ok; vm_compute; reflexivity|]. split; vm_compute; reflexivity.
  - exists 26%Z. exists [(1, 2, 1, 2, 1); (19, 20, 18, 20, 1)]%Z. eexists. eexists. split; [apply paired_ok; vm_compute; reflexivity|]. split; vm_compute; reflexivity.
Qed.
Print Assumptions C81_one_sided_refuted.
(** the stochastic: when one line leaves the top and the other the bottom on one day, both markets are told to sell *)
Theorem C81_stochastic_refuted : exists c m rs ob ob', c = cSO (VInt 1) (VInt 1) (VInt 5) (VStr "simple") /\ pairing c m rs ob ob' /\ get_ti_signal ob = Ok Sell /\ get_ti_signal ob' = Ok Sell.
Proof.
  exists (cSO (VInt 1) (VInt 1) (VInt 5) (VStr "simple")). exists 120%Z. exists (map (fun c => (50, 110, 10, c, 1)%Z) [10; 10; 10; 10; 100; 80]%Z). eexists. eexists.
  split; [reflexivity|]. split; [apply paired_ok; vm_compute; reflexivity|]. split; vm_compute; reflexivity.
Qed.
Print Assumptions C81_stochastic_refuted.

(** ** cases *)
(** the ten days of [ten], mirrored at 13: x becomes 26 - x *)
Definition net := bars (over 26 ten_days).
Definition ten_of (c : ctor) := the (made ora0 c ten true). Definition net_of (c : ctor) := the (made ora0 c net true).
Definition everything (c : ctor) : bool := forallb (fun k => forallb (fun q => let '(name', name, w) := q in
  let x := shown name' (net_of c) k in let y := follow w (zq 26) (shown name (ten_of c) k) in
  match x, y with NaN, NaN => true | _, _ => neqb x y end) (mirror_table c)) (seq 0 (days_given (ten_of c))) &&
  match mirror_table c with q :: _ => existsb (fun k => isfin (shown (snd (fst q)) (ten_of c) k)) (seq 0 10) | [] => false end.
Definition mirror_cases := [cADL; cCMF (VInt 3); cCMO (VInt 3); cCCI (VInt 3); cDPO (VInt 4); cEMV (VInt 2); cLRS (VInt 3); cQS (VInt 2); cSMI (VInt 2) (VInt 2) (VInt 2); cSWI; cWAD; cOBV;
  cIMI (VInt 3); cRSI (VInt 3); cPROJ (VInt 3); cSO (VInt 3) (VInt 3) (VInt 2) (VStr "simple"); cWR (VInt 3); cMFI; cSD (VInt 3); cVCH (VInt 2) (VInt 2); cVHF (VInt 2); cMA (VInt 3) (VStr "simple");
  cMA (VInt 3) (VStr "exponential"); cMA (VInt 3) (VStr "triangular"); cDEMA (VInt 2); cTEMA (VInt 2); cWS (VInt 2); cLRI (VInt 3); cTSF (VInt 3); cMP (VInt 2); cTP (VInt 2); cWC; cICH; cBB (VInt 3) (VFloat (F 2)); cPB (VInt 3); cPCH (VInt 3); cFIB].
Example C80_case : forallb everything mirror_cases = true /\ List.length mirror_cases = 37%nat /\
  (let sar_up := the (made ora0 cPSAR (bars (skipn 2 ten_days)) true) in let sar_down := the (made ora0 cPSAR (bars (over 26 (skipn 2 ten_days))) true) in
   neqb (shown "sar" sar_down 5) (nsub (F 26) (shown "sar" sar_up 5)) && isfin (shown "sar" sar_up 5) = true).
Proof. vm_compute. auto. Qed.

Ltac ten_times := intros j J; do 10 (destruct j as [|j]; [first [lia|repeat split; first [apply qleb_iff|apply qltb_iff|apply nonzero]; vm_compute; reflexivity]|]); lia.
Example C80_hypotheses : even_ticks (zq 26) /\
  (let c := cPROJ (VInt 3) in pairing c 26 ten_days (first_of c ten_days) (second_of c 26 ten_days) /\ forall j, (2 <= j <= 9)%nat -> r4 (highest_projection (hi_of ten_days) 3 j) <> r4 (lowest_projection (lo_of ten_days) 3 j)) /\
  (pairing cPSAR 26 (skipn 2 ten_days) (first_of cPSAR (skipn 2 ten_days)) (second_of cPSAR 26 (skipn 2 ten_days)) /\ ordinary cPSAR 8 5 (op_of (skipn 2 ten_days)) (hi_of (skipn 2 ten_days)) (lo_of (skipn 2 ten_days)) (cl_of (skipn 2 ten_days)) (vo_of (skipn 2 ten_days))) /\
  (pairing (cCMF (VInt 3)) 26 ten_days (first_of (cCMF (VInt 3)) ten_days) (second_of (cCMF (VInt 3)) 26 ten_days) /\
   ordinary (cCMF (VInt 3)) 10 5 (op_of ten_days) (hi_of ten_days) (lo_of ten_days) (cl_of ten_days) (vo_of ten_days)) /\
  (let c := cRMI (VInt 3) (VInt 1) in pairing c 26 ten_days (first_of c ten_days) (second_of c 26 ten_days) /\ shown "rmi" (first_of c ten_days) 7 <> NaN /\ shown "rmi" (second_of c 26 ten_days) 7 <> NaN).
Proof.
  split; [exists 130000%Z; apply Qc_is_canon; reflexivity|]. cbv zeta. split; [|split; [|split]].
  - split; [apply paired_ok; vm_compute; reflexivity|]. intros j J E. apply qeqb_iff in E. revert E. do 10 (destruct j as [|j]; [first [lia|vm_compute; discriminate]|]). lia.
  - split; [apply paired_ok; vm_compute; reflexivity|]. cbn [ordinary]. split; [lia|]. rewrite <- qltb_iff, <- qleb_iff. vm_compute. tauto.
  - split; [apply paired_ok; vm_compute; reflexivity|]. cbn [ordinary]. ten_times.
  - split; [apply paired_ok; vm_compute; reflexivity|]. split; vm_compute; discriminate.
Qed.
Definition both_signals (c : ctor) := (get_ti_signal (ten_of c), get_ti_signal (net_of c)).
Example C81_case : both_signals (cTEMA (VInt 2)) = (Ok Buy, Ok Sell) /\ both_signals (cRSI (VInt 3)) = (Ok Hold, Ok Hold) /\ even_handed (cTEMA (VInt 2)) (ten_of (cTEMA (VInt 2))) /\
  pairing (cTEMA (VInt 2)) 26 ten_days (ten_of (cTEMA (VInt 2))) (net_of (cTEMA (VInt 2))) /\ pairing (cVCH (VInt 2) (VInt 2)) 26 ten_days (ten_of (cVCH (VInt 2) (VInt 2))) (net_of (cVCH (VInt 2) (VInt 2))).
Proof. split; [vm_compute; reflexivity|]. split; [vm_compute; reflexivity|]. split; [exact I|]. split; apply paired_ok; vm_compute; reflexivity. Qed.
