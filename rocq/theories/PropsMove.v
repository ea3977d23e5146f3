(** * PropsMove: a market whose prices all lie one amount higher (or lower).

    The prices x of a first input are d + x in a second one; volumes are the same.
    [price_like c] lists the published columns that lie d higher too, [level_free c] those that do not change ([MoveSpec]);
    [ordinary] are the days without a division by zero ([MirrorSpec]). *)
From Coq Require Import ZArith QArith Qcanon Bool List String PeanoNat Lia.
From Verif Require Import Num NumFacts Pandas Sim Frame FrameSpec Ind Signal Api IndSpec ApiSpec RangeSpec PropsApi PropsRange ValueSpec ValueApi PropsValue PropsCumul FormulaSpec FormulaApi PropsFormula SignalSpec SignalApi MirrorSpec PropsMirror MoveSpec MoveApi.
Import ListNotations.
Open Scope list_scope. Open Scope string_scope. Open Scope Qc_scope.

(** ** C85 Values when one amount is added to all prices *)
Theorem C85_prices_move o raw raw' b b' ob ob' d op h l cl v c k name : wf_raw raw -> wf_raw raw' -> even_ticks d ->
  twice c o raw raw' b b' ob ob' -> moved c d ob ob' op h l cl v -> (k < days_given ob)%nat -> ordinary c (days_given ob) k op h l cl v ->
  In name (price_like c) -> shown name ob' k = nadd (Fin d) (shown name ob k).
Proof. exact (fun W W' E T M => prices_move o raw raw' b b' ob ob' d op h l cl v c W W' E T M k name). Qed.
Print Assumptions C85_prices_move.
Theorem C85_levels_stay o raw raw' b b' ob ob' d op h l cl v c k name : wf_raw raw -> wf_raw raw' -> even_ticks d ->
  twice c o raw raw' b b' ob ob' -> moved c d ob ob' op h l cl v -> (k < days_given ob)%nat -> ordinary c (days_given ob) k op h l cl v ->
  In name (level_free c) -> shown name ob' k = shown name ob k.
Proof. exact (fun W W' E T M => levels_stay o raw raw' b b' ob ob' d op h l cl v c W W' E T M k name). Qed.
Print Assumptions C85_levels_stay.
(** two more that stay, for every amount and every day *)
Theorem C85_relative_momentum o raw raw' b b' ob ob' d p q c k : wf_raw raw -> wf_raw raw' ->
  twice (cRMI p q) o raw raw' b b' ob ob' -> beside d k ob ob' "close" c -> shown "rmi" ob' k = shown "rmi" ob k.
Proof. exact (fun W W' => move_rmi o raw raw' b b' ob ob' d k W W' p q c). Qed.
Print Assumptions C85_relative_momentum.
Theorem C85_range_indicator o raw raw' b b' ob ob' d p q h l c k : wf_raw raw -> wf_raw raw' -> twice (cRI p q) o raw raw' b b' ob ob' ->
  beside d k ob ob' "high" h -> beside d k ob ob' "low" l -> beside d k ob ob' "close" c -> shown "ri" ob' k = shown "ri" ob k.
Proof. exact (fun W W' => move_ri o raw raw' b b' ob ob' d k W W' p q h l c). Qed.
Print Assumptions C85_range_indicator.

(** ** C86 Signals when one amount is added to all prices *)
Theorem C86_same_signals o raw raw' b b' ob ob' d op h l cl v c : wf_raw raw -> wf_raw raw' -> even_ticks d ->
  twice c o raw raw' b b' ob ob' -> moved c d ob ob' op h l cl v -> (forall k, (k < days_given ob)%nat -> ordinary c (days_given ob) k op h l cl v) ->
  even_handed c ob -> forall s, get_ti_signal ob = Ok s -> get_ti_signal ob' = Ok s.
Proof. exact (fun W W' E T M => signals_stay o raw raw' b b' ob ob' d op h l cl v c W W' E T M). Qed.
Print Assumptions C86_same_signals.
Theorem C86_size_signals o raw raw' b b' ob ob' d op h l cl v c : wf_raw raw -> wf_raw raw' -> even_ticks d ->
  twice c o raw raw' b b' ob ob' -> moved c d ob ob' op h l cl v -> c = cMFI \/ (exists p q, c = cVCH p q) ->
  forall s, get_ti_signal ob = Ok s -> get_ti_signal ob' = Ok s.
Proof. exact (fun W W' E T M => sizes_stay o raw raw' b b' ob ob' d op h l cl v c W W' E T M). Qed.
Print Assumptions C86_size_signals.
(** the averages that only ever buy *)
Theorem C86_average_signals o raw raw' b b' ob ob' d op h l cl v c : wf_raw raw -> wf_raw raw' -> even_ticks d ->
  twice c o raw raw' b b' ob ob' -> moved c d ob ob' op h l cl v -> (forall k, (k < days_given ob)%nat -> ordinary c (days_given ob) k op h l cl v) ->
  (exists p, c = cDEMA p) \/ (exists p t, c = cMA p (VStr t) /\ price_like c <> []) -> forall s, get_ti_signal ob = Ok s -> get_ti_signal ob' = Ok s.
Proof. exact (fun W W' E T M => buyers_stay o raw raw' b b' ob ob' d op h l cl v c W W' E T M). Qed.
Print Assumptions C86_average_signals.

(** ** what does depend on the level, with witnesses *)
Definition aside (d : Z) (rs : list (Z * Z * Z * Z * Z)) := map (fun r => let '(o, h, l, c, v) := r in (d + o, d + h, d + l, d + c, v)%Z) rs.
Definition placing (c : ctor) (d : Z) (rs : list (Z * Z * Z * Z * Z)) (ob ob' : obj) : Prop :=
  wf_raw (bars rs) /\ wf_raw (bars (aside d rs)) /\ even_ticks (zq d) /\ twice c ora0 (bars rs) (bars (aside d rs)) true true ob ob' /\
  moved c (zq d) ob ob' (op_of rs) (hi_of rs) (lo_of rs) (cl_of rs) (vo_of rs).
Definition beside_of c d rs := the (made ora0 c (bars (aside d rs)) true).
Definition placed (c : ctor) (d : Z) (rs : list (Z * Z * Z * Z * Z)) : bool :=
  match made ora0 c (bars rs) true, made ora0 c (bars (aside d rs)) true with
  | Some ob, Some ob' =>
    let n := S (days_given ob - 1) in
    let both name d f := negb (existsb (String.eqb name) (required (asked c))) || reads_as (given name ob) n f && reads_as (given name ob') n (fun j => d + f j) in
    (days_given ob' =? days_given ob)%nat && both "open" (zq d) (op_of rs) && both "high" (zq d) (hi_of rs) && both "low" (zq d) (lo_of rs) && both "close" (zq d) (cl_of rs) && both "volume" 0 (vo_of rs)
  | _, _ => false
  end.
Lemma placed_ok c d rs : placed c d rs = true -> placing c d rs (first_of c rs) (beside_of c d rs).
Proof.
  unfold placed, first_of, beside_of, made. destruct (snd (construct ora0 c (RFrame (bars rs)) (VBool true))) as [ob|] eqn:A; [|discriminate].
  destruct (snd (construct ora0 c (RFrame (bars (aside d rs))) (VBool true))) as [ob'|] eqn:B; [|discriminate]. cbn [the]. cbv zeta. rewrite !andb_true_iff.
  intros [[[[[D O] H] L] C] V]. apply Nat.eqb_eq in D.
  assert (G : forall name x x' n f f', negb (existsb (String.eqb name) (required (asked c))) || reads_as x (S n) f && reads_as x' (S n) f' = true -> In name (required (asked c)) -> known x n f /\ known x' n f').
  { intros name x x' n f f' R I. rewrite (named _ _ I) in R. cbn [negb orb] in R. apply andb_true_iff in R as [R R']. split; apply reads_as_known; assumption. }
  split; [apply bars_wf|]. split; [apply bars_wf|]. split; [exists (5000 * d)%Z; apply Qc_is_canon; unfold zq; cbn [this Q2Qc]; rewrite !Qred_correct; unfold Qeq; cbn [Qnum Qden inject_Z]; lia|].
  split; [split; assumption|]. unfold moved. cbv zeta. split; [exact D|]. split; [exact (G "open" _ _ _ _ _ O)|]. split; [exact (G "high" _ _ _ _ _ H)|]. split; [exact (G "low" _ _ _ _ _ L)|]. split; [exact (G "close" _ _ _ _ _ C)|exact (G "volume" _ _ _ _ _ V)].
Qed.
Definition level_bound : list (ctor * string) := [(cENV (VInt 3) (VFloat (D 1 10)), "upper_band"); (cMOM (VInt 3), "mom"); (cPRC (VInt 3), "prc"); (cPOSC (VInt 3) (VInt 2), "posc"); (cFOSC (VInt 3), "fosc"); (cNVI, "nvi"); (cPVI, "pvi"); (cPVT, "pvt")].
(** these columns neither stay nor move with the prices *)
Theorem C85_level_bound_refuted : forall c name, In (c, name) level_bound -> exists d rs ob ob' k, placing c d rs ob ob' /\ isfin (shown name ob k) = true /\
  ~ same (shown name ob' k) (shown name ob k) /\ ~ same (shown name ob' k) (nadd (Fin (zq d)) (shown name ob k)).
Proof.
  assert (Q : forallb (fun cn => let '(c, name) := cn in let x := shown name (first_of c ten_days) 7 in let y := shown name (beside_of c 20 ten_days) 7 in
    placed c 20 ten_days && isfin x && negb (neqb y x) && negb (neqb y (nadd (Fin (zq 20)) x))) level_bound = true) by (vm_compute; reflexivity).
  intros c name I. rewrite forallb_forall in Q. specialize (Q _ I). cbv beta iota zeta in Q. rewrite !andb_true_iff, !negb_true_iff in Q. destruct Q as [[[P X] Y] Z].
  exists 20%Z, ten_days, (first_of c ten_days), (beside_of c 20 ten_days), 7%nat. split; [apply placed_ok, P|]. split; [exact X|].
  split; intro S; apply same_iff in S; congruence.
Qed.
Print Assumptions C85_level_bound_refuted.
(** the envelope is a percentage of the price: the same moves leave it at low prices and stay inside at high ones *)
Theorem C86_envelope_refuted : exists c d rs ob ob', c = cENV (VInt 3) (VFloat (D 1 10)) /\ placing c d rs ob ob' /\ get_ti_signal ob = Ok Sell /\ get_ti_signal ob' = Ok Hold.
Proof.
  exists (cENV (VInt 3) (VFloat (D 1 10))), 20%Z, (firstn 8 ten_days). eexists. eexists. split; [reflexivity|]. split; [apply placed_ok; vm_compute; reflexivity|]. split; vm_compute; reflexivity.
Qed.
Print Assumptions C86_envelope_refuted.

(** ** cases *)
Definition agree (x y : num) : bool := match x, y with NaN, NaN => true | _, _ => neqb x y end.
Definition next_door (c : ctor) : bool :=
  let ob := first_of c ten_days in let ob' := beside_of c 20 ten_days in
  placed c 20 ten_days && forallb (fun k => forallb (fun name => agree (shown name ob' k) (nadd (F 20) (shown name ob k))) (price_like c) && forallb (fun name => agree (shown name ob' k) (shown name ob k)) (level_free c)) (seq 0 10) &&
  match (price_like c ++ level_free c)%list with name :: _ => existsb (fun k => isfin (shown name ob k)) (seq 0 10) | [] => false end.
Definition move_cases := (cPSAR :: mirror_cases)%list.
Example C85_case : forallb next_door move_cases = true /\ List.length move_cases = 38%nat /\ neqb (shown "rmi" (first_of (cRMI (VInt 3) (VInt 1)) ten_days) 7) (shown "rmi" (beside_of (cRMI (VInt 3) (VInt 1)) 20 ten_days) 7) = true /\
  neqb (shown "ri" (first_of (cRI (VInt 3) (VInt 2)) ten_days) 7) (shown "ri" (beside_of (cRI (VInt 3) (VInt 2)) 20 ten_days) 7) = true /\ placed (cRMI (VInt 3) (VInt 1)) 20 ten_days && placed (cRI (VInt 3) (VInt 2)) 20 ten_days = true.
Proof. vm_compute. auto. Qed.
Example C85_hypotheses : even_ticks (zq 20) /\ placing (cBB (VInt 3) (VFloat (F 2))) 20 ten_days (first_of (cBB (VInt 3) (VFloat (F 2))) ten_days) (beside_of (cBB (VInt 3) (VFloat (F 2))) 20 ten_days) /\ In "lower_band" (price_like (cBB (VInt 3) (VFloat (F 2)))) /\
  (placing (cCMF (VInt 3)) 20 ten_days (first_of (cCMF (VInt 3)) ten_days) (beside_of (cCMF (VInt 3)) 20 ten_days) /\
   ordinary (cCMF (VInt 3)) 10 5 (op_of ten_days) (hi_of ten_days) (lo_of ten_days) (cl_of ten_days) (vo_of ten_days)) /\
  (forall c, c = cRMI (VInt 3) (VInt 1) \/ c = cRI (VInt 3) (VInt 2) -> placing c 20 ten_days (first_of c ten_days) (beside_of c 20 ten_days)).
Proof.
  split; [exists 100000%Z; apply Qc_is_canon; reflexivity|]. split; [apply placed_ok; vm_compute; reflexivity|]. split; [cbn; auto|]. split.
  - split; [apply placed_ok; vm_compute; reflexivity|]. cbn [ordinary]. ten_times.
  - intros c [->| ->]; apply placed_ok; vm_compute; reflexivity.
Qed.
Definition neighbours (c : ctor) (rs : list (Z * Z * Z * Z * Z)) := (get_ti_signal (first_of c rs), get_ti_signal (beside_of c 20 rs)).
Example C86_case : neighbours (cTEMA (VInt 2)) ten_days = (Ok Buy, Ok Buy) /\ neighbours (cDEMA (VInt 2)) (firstn 7 ten_days) = (Ok Buy, Ok Buy) /\ neighbours (cMA (VInt 2) (VStr "simple")) (firstn 8 ten_days) = (Ok Buy, Ok Buy) /\
  even_handed (cTEMA (VInt 2)) (first_of (cTEMA (VInt 2)) ten_days) /\ price_like (cMA (VInt 2) (VStr "simple")) <> [] /\
  placing (cTEMA (VInt 2)) 20 ten_days (first_of (cTEMA (VInt 2)) ten_days) (beside_of (cTEMA (VInt 2)) 20 ten_days) /\
  placing (cVCH (VInt 2) (VInt 2)) 20 ten_days (first_of (cVCH (VInt 2) (VInt 2)) ten_days) (beside_of (cVCH (VInt 2) (VInt 2)) 20 ten_days) /\
  placing (cDEMA (VInt 2)) 20 (firstn 7 ten_days) (first_of (cDEMA (VInt 2)) (firstn 7 ten_days)) (beside_of (cDEMA (VInt 2)) 20 (firstn 7 ten_days)).
Proof.
  do 3 (split; [vm_compute; reflexivity|]). split; [exact I|]. split; [discriminate|]. split; [|split]; apply placed_ok; vm_compute; reflexivity.
Qed.
