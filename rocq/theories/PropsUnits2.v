(** * PropsUnits2: the same market in other units of money and of volume.

    In a second input every price is a times and every volume u times what it is in a first one: another currency, cents
    instead of dollars, a split, thousands of shares.  [ratios c] are the columns without a unit, [dimensions c] the unit
    of the others ([UnitSpec]).  [converted c r y y']: y and y' are one exact value x and r x, rounded when published. *)
From Coq Require Import ZArith QArith Qcanon Bool List String PeanoNat Lia.
From Verif Require Import Num NumFacts Pandas Sim Frame FrameSpec Ind Signal Api IndSpec ApiSpec RangeSpec PropsApi PropsRange ValueSpec ValueApi PropsValue PropsCumul FormulaSpec FormulaApi PropsFormula SignalSpec SignalApi MirrorSpec PropsMirror CurrencySpec UnitSpec UnitApi UnitSim.
Import ListNotations.
Open Scope list_scope. Open Scope string_scope. Open Scope Qc_scope.

(** ** C94 Values in other units *)
Theorem C94_ratios o raw raw' b b' ob ob' a u op h l cl v c k : wf_raw raw -> wf_raw raw' -> 0 < a -> 0 < u ->
  twice c o raw raw' b b' ob ob' -> exchanged c a u ob ob' op h l cl v -> (k < days_given ob)%nat -> workable c (days_given ob) k h l cl v ->
  forall name, In name (ratios c) -> shown name ob' k = shown name ob k.
Proof. exact (fun W W' A U T X K R name => ratios_same o raw raw' b b' ob ob' a u k op h l cl v c W W' A U name T X K R). Qed.
Print Assumptions C94_ratios.
Theorem C94_dimensions o raw raw' b b' ob ob' a u op h l cl v c k : wf_raw raw -> wf_raw raw' -> 0 < a -> 0 < u ->
  twice c o raw raw' b b' ob ob' -> exchanged c a u ob ob' op h l cl v -> (k < days_given ob)%nat -> workable c (days_given ob) k h l cl v ->
  forall name d, In (name, d) (dimensions c) -> converted c (rate a u d) (shown name ob k) (shown name ob' k).
Proof. exact (fun W W' A U T X K R name d => dimensions_follow o raw raw' b b' ob ob' a u k op h l cl v c W W' A U name d T X K R). Qed.
Print Assumptions C94_dimensions.

(** ** C95 Signals and simulations in other units *)
Theorem C95_data o raw raw' b b' ob ob' a u op h l cl v c : wf_raw raw -> wf_raw raw' -> 0 < a -> 0 < u ->
  twice c o raw raw' b b' ob ob' -> exchanged c a u ob ob' op h l cl v -> same_dates ob ob' -> (forall k, (k < days_given ob)%nat -> workable c (days_given ob) k h l cl v) ->
  unit_free c -> c <> cOBV -> get_ti_data ob' = get_ti_data ob.
Proof. exact (fun W W' A U T X D R F => data_same o raw raw' b b' ob ob' a u op h l cl v c W W' A U T X D R F). Qed.
Print Assumptions C95_data.
Theorem C95_signal o raw raw' b b' ob ob' a u op h l cl v c : wf_raw raw -> wf_raw raw' -> 0 < a -> 0 < u ->
  twice c o raw raw' b b' ob ob' -> exchanged c a u ob ob' op h l cl v -> same_dates ob ob' -> (forall k, (k < days_given ob)%nat -> workable c (days_given ob) k h l cl v) ->
  unit_free c -> get_ti_signal ob' = get_ti_signal ob.
Proof. exact (fun W W' A U T X D R F => signal_units o raw raw' b b' ob ob' a u op h l cl v c W W' A U T X D R F). Qed.
Print Assumptions C95_signal.
(** the same trades on the same days; all the money is a times as much *)
Theorem C95_simulation o raw raw' b b' ob ob' a u op h l cl v c cv m m' x : wf_raw raw -> wf_raw raw' -> 0 < a -> 0 < u ->
  twice c o raw raw' b b' ob ob' -> exchanged c a u ob ob' op h l cl v -> same_dates ob ob' -> (forall k, (k < days_given ob)%nat -> workable c (days_given ob) k h l cl v) ->
  unit_free c -> limit_in a m m' ->
  match snd (get_ti_simulation ob (RFrame cv) m x), snd (get_ti_simulation ob' (RFrame (repriced a cv)) m' x) with
  | Ok (st, s), Ok (st', s') => Forall2 (in_currency a) (data st) (data st') /\ same_counts s s'
  | Err e, Err e' => e' = e
  | _, _ => False
  end.
Proof. exact (fun W W' A U T X D R F => simulation_units o raw raw' b b' ob ob' a u op h l cl v c W W' A U T X D R F cv m m' x). Qed.
Print Assumptions C95_simulation.

(** ** pairs of inputs *)
(** the days rs with prices in units of 1 / d, and the days with prices times p and volumes times q *)
Definition small (d : positive) (rs : list (Z * Z * Z * Z * Z)) : rawframe :=
  mkRaw true ohlcv [true; true; true; true; true]
    (map (fun p => let '(k, (a, h, l, c, v)) := p in (Z.of_nat k, [D a d; D h d; D l d; D c d; F v])) (combine (seq 1 (List.length rs)) rs)).
Lemma small_wf d rs : wf_raw (small d rs).
Proof. split; [reflexivity|]. intros r H. cbn in H. apply in_map_iff in H as ([k [[[[a h] l] c] v]] & <- & _). reflexivity. Qed.
Definition grown (p q : Z) (rs : list (Z * Z * Z * Z * Z)) := map (fun r => let '(o, h, l, c, v) := r in (p * o, p * h, p * l, p * c, q * v)%Z) rs.
Definition unit_pair (o : oracle) (c : ctor) (d : positive) (p q : Z) (rs : list (Z * Z * Z * Z * Z)) (ob ob' : obj) : Prop :=
  let per f j := f j / zq (Zpos d) in let a := zq (Zpos d * p) in let u := zq q in
  wf_raw (small d rs) /\ wf_raw (bars (grown p q rs)) /\ 0 < a /\ 0 < u /\ twice c o (small d rs) (bars (grown p q rs)) true true ob ob' /\
  exchanged c a u ob ob' (per (op_of rs)) (per (hi_of rs)) (per (lo_of rs)) (per (cl_of rs)) (vo_of rs) /\ same_dates ob ob'.
Definition small_of o c d rs := the (made o c (small d rs) true). Definition grown_of o c p q rs := the (made o c (bars (grown p q rs)) true).
Definition same_day_list (l l' : list Z) : bool := (List.length l =? List.length l')%nat && forallb (fun p => Z.eqb (fst p) (snd p)) (combine l l').
Definition pairs (o : oracle) (c : ctor) (d : positive) (p q : Z) (rs : list (Z * Z * Z * Z * Z)) : bool :=
  match made o c (small d rs) true, made o c (bars (grown p q rs)) true with
  | Some ob, Some ob' =>
    let per f j := f j / zq (Zpos d) in let a := zq (Zpos d * p) in let u := zq q in
    let n := S (days_given ob - 1) in
    let both name s f := negb (existsb (String.eqb name) (required (asked c))) || reads_as (given name ob) n f && reads_as (given name ob') n (fun j => s * f j) in
    qltb 0 a && qltb 0 u && (days_given ob' =? days_given ob)%nat && both "open" a (per (op_of rs)) && both "high" a (per (hi_of rs)) && both "low" a (per (lo_of rs)) && both "close" a (per (cl_of rs)) &&
    both "volume" u (vo_of rs) && same_day_list (index (ob_input ob')) (index (ob_input ob))
  | _, _ => false
  end.
Lemma same_day_ok l l' : same_day_list l l' = true -> l = l'.
Proof.
  unfold same_day_list. rewrite andb_true_iff. intros [L E]. apply Nat.eqb_eq in L. revert l' L E. induction l as [|x l IH]; intros [|y l'] L E; try discriminate; [reflexivity|].
  cbn [combine forallb fst snd] in E. apply andb_true_iff in E as [E1 E2]. apply Z.eqb_eq in E1. subst. f_equal. apply IH; [cbn in L; lia|exact E2].
Qed.
Lemma pairs_ok o c d p q rs : pairs o c d p q rs = true -> unit_pair o c d p q rs (small_of o c d rs) (grown_of o c p q rs).
Proof.
  unfold pairs, small_of, grown_of, made. destruct (snd (construct o c (RFrame (small d rs)) (VBool true))) as [ob|] eqn:A; [|discriminate].
  destruct (snd (construct o c (RFrame (bars (grown p q rs))) (VBool true))) as [ob'|] eqn:B; [|discriminate]. cbn [the]. cbv zeta. rewrite !andb_true_iff.
  intros [[[[[[[[PA PU] DD] HO] H] L] C] V] SD]. apply Nat.eqb_eq in DD.
  assert (G : forall name x x' n f f', negb (existsb (String.eqb name) (required (asked c))) || reads_as x (S n) f && reads_as x' (S n) f' = true -> In name (required (asked c)) -> known x n f /\ known x' n f').
  { intros name x x' n f f' R I. rewrite (named _ _ I) in R. cbn [negb orb] in R. apply andb_true_iff in R as [R R']. split; apply reads_as_known; assumption. }
  unfold unit_pair. split; [apply small_wf|]. split; [apply bars_wf|]. split; [apply qltb_iff; exact PA|]. split; [apply qltb_iff; exact PU|]. split; [split; assumption|].
  split; [|exact (same_day_ok _ _ SD)]. unfold exchanged. cbv zeta. split; [exact DD|].
  split; [exact (G "open" _ _ _ _ _ HO)|]. split; [exact (G "high" _ _ _ _ _ H)|]. split; [exact (G "low" _ _ _ _ _ L)|]. split; [exact (G "close" _ _ _ _ _ C)|exact (G "volume" _ _ _ _ _ V)].
Qed.

(** ** what depends on the units, with witnesses *)
Definition apart (t : Z) (x y : num) : bool := match x, y with Fin a, Fin b => qltb (zq t) (qabs (a - b)) | _, _ => false end.
(** the range indicator and the swing index are published as indexes, but with the prices in other units they are other numbers, and not in proportion either *)
Theorem C94_range_indicator_refuted : exists d p rs ob ob' k, unit_pair ora0 (cRI (VInt 2) (VInt 2)) d p 1 rs ob ob' /\
  apart 1 (shown "ri" ob' k) (shown "ri" ob k) = true /\ apart 1 (shown "ri" ob' k) (nmul (Fin (zq (Zpos d * p))) (shown "ri" ob k)) = true.
Proof.
  exists 1%positive, 10%Z, ten_days. eexists. eexists. exists 3%nat. split; [apply pairs_ok; vm_compute; reflexivity|]. split; vm_compute; reflexivity.
Qed.
Print Assumptions C94_range_indicator_refuted.
Theorem C94_swing_index_refuted : exists d p rs ob ob' k, unit_pair ora0 cSWI d p 1 rs ob ob' /\
  apart 1 (shown "swi" ob' k) (shown "swi" ob k) = true /\ apart 1 (shown "swi" ob' k) (nmul (Fin (zq (Zpos d * p))) (shown "swi" ob k)) = true.
Proof.
  exists 1%positive, 10%Z, ten_days. eexists. eexists. exists 1%nat. split; [apply pairs_ok; vm_compute; reflexivity|]. split; vm_compute; reflexivity.
Qed.
Print Assumptions C94_swing_index_refuted.
(** the Chaikin oscillator is computed from the accumulation/distribution line cut to whole numbers: with the volume in thousandths it is not a thousand times as large *)
Theorem C94_chaikin_refuted : exists q rs ob ob' k, unit_pair ora0 cCO 1 1 q rs ob ob' /\ apart 10 (shown "co" ob' k) (nmul (Fin (zq q)) (shown "co" ob k)) = true.
Proof.
  exists 1000%Z, ten_days. eexists. eexists. exists 9%nat. split; [apply pairs_ok; vm_compute; reflexivity|]. vm_compute; reflexivity.
Qed.
Print Assumptions C94_chaikin_refuted.
(** a line rounded to four decimals and compared with the price: prices far below a cent give another signal *)
Definition penny := [(6, 8, 5, 6, 10); (6, 8, 5, 6, 10); (6, 8, 5, 7, 10)]%Z.
Theorem C95_rounded_line_refuted : exists c d rs ob ob', c = cMA (VInt 3) (VStr "simple") /\ unit_pair ora0 c d 1 1 rs ob ob' /\ get_ti_signal ob = Ok Hold /\ get_ti_signal ob' = Ok Buy.
Proof.
  exists (cMA (VInt 3) (VStr "simple")), 100000%positive, penny. eexists. eexists. split; [reflexivity|]. split; [apply pairs_ok; vm_compute; reflexivity|]. split; vm_compute; reflexivity.
Qed.
Print Assumptions C95_rounded_line_refuted.
(** a level in money: the standard deviation of 11 and 13 is 1, below the level 2 of the rule, and the one of 110 and 130 is 10, above it *)
Definition two_roots : oracle := mkOracle (fun q => if qeqb q (zq 100) then zq 10 else q) (fun n => repeat 1%Qc n).
Theorem C95_money_level_refuted : exists c o p rs ob ob', c = cSD (VInt 2) /\ o_sqrt o 1 = 1 /\ o_sqrt o (zq 100) = zq 10 /\ unit_pair o c 1 p 1 rs ob ob' /\ get_ti_signal ob = Ok Hold /\ get_ti_signal ob' = Ok Sell.
Proof.
  exists (cSD (VInt 2)), two_roots, 10%Z, [(9, 12, 8, 11, 50); (11, 13, 9, 13, 60)]%Z. eexists. eexists. split; [reflexivity|]. split; [reflexivity|]. split; [reflexivity|].
  split; [apply pairs_ok; vm_compute; reflexivity|]. split; vm_compute; reflexivity.
Qed.
Print Assumptions C95_money_level_refuted.

(** ** cases: ten days in dollars and their hundreds of shares, and the same in cents and shares *)
Definition cents (c : ctor) (rs : list (Z * Z * Z * Z * Z)) : bool :=
  pairs ora0 c 1 100 100 rs &&
  let ob := small_of ora0 c 1 rs in let ob' := grown_of ora0 c 100 100 rs in
  forallb (fun k => forallb (fun name => let x := shown name ob' k in let y := shown name ob k in match x, y with NaN, NaN => true | _, _ => neqb x y end) (ratios c) &&
     forallb (fun q => let x := shown (fst q) ob' k in let y := shown (fst q) ob k in
       match x, y with NaN, NaN => true | Fin a, Fin b => qleb (qabs (a - rate (zq 100) (zq 100) (snd q) * b)) (zq (match c with cADL => 100 | _ => 1 end)) | _, _ => false end) (dimensions c)) (seq 0 (days_given ob)) &&
  forallb (fun name => existsb (fun k => isfin (shown name ob k)) (seq 0 (days_given ob))) (firstn 1 (ratios c ++ map fst (dimensions c))) &&
  negb (List.length (ratios c ++ map fst (dimensions c)) =? 0)%nat.
Definition ten_cases := [cCMO (VInt 3); cRMI (VInt 2) (VInt 1); cIMI (VInt 3); cWR (VInt 3); cMOM (VInt 3); cPRC (VInt 3); cPOSC (VInt 3) (VInt 2); cPRF (VStr "LONG") (VInt 2); cCCI (VInt 3); cSMI (VInt 2) (VInt 2) (VInt 2);
  cVCH (VInt 2) (VInt 2); cVHF (VInt 2); cSO (VInt 3) (VInt 3) (VInt 2) (VStr "simple"); cCMF (VInt 3); cVRC (VInt 3); cNVI; cPVI;
  cMA (VInt 3) (VStr "simple"); cMA (VInt 3) (VStr "exponential"); cMA (VInt 3) (VStr "triangular"); cDEMA (VInt 2); cTEMA (VInt 2); cWS (VInt 2); cMP (VInt 2); cTP (VInt 2); cWC; cPCH (VInt 3); cFIB;
  cENV (VInt 3) (VFloat (D 1 10)); cBB (VInt 3) (VFloat (F 2)); cPB (VInt 3); cLRI (VInt 3); cLRS (VInt 3); cQS (VInt 2); cDPO (VInt 4); cWAD; cPSAR; cOBV; cPVT; cVOSC (VInt 3) (VInt 2); cADL; cMFI; cEMV (VInt 2)].
Definition month_cases := [cDMI; cUO; cATR; cMA (VInt 3) (VStr "variable")].
Example C94_case : forallb (fun c => cents c ten_days) ten_cases = true /\ forallb (fun c => cents c month) month_cases = true /\ cents cMI (month ++ ten_days ++ firstn 1 ten_days) = true.
Proof. split; [|split]; vm_compute; reflexivity. Qed.
(** the hypotheses hold: chaikin money flow, negative volume index and accumulation/distribution line on the ten days *)
Example C94_hypotheses : forall c, In c [cCMF (VInt 3); cNVI; cADL; cWR (VInt 3)] ->
  let ob := small_of ora0 c 1 ten_days in let per f j := f j / zq 1 in
  unit_pair ora0 c 1 100 100 ten_days ob (grown_of ora0 c 100 100 ten_days) /\ days_given ob = 10%nat /\
  (forall k, (k < days_given ob)%nat -> workable c (days_given ob) k (per (hi_of ten_days)) (per (lo_of ten_days)) (per (cl_of ten_days)) (vo_of ten_days)) /\
  (ratios c <> [] \/ dimensions c <> []).
Proof.
  cbv zeta. intros c I.
  assert (N : forallb (fun c => pairs ora0 c 1 100 100 ten_days && (days_given (small_of ora0 c 1 ten_days) =? 10)%nat) [cCMF (VInt 3); cNVI; cADL; cWR (VInt 3)] = true) by (vm_compute; reflexivity).
  rewrite forallb_forall in N. specialize (N c I). apply andb_true_iff in N as [P L]. apply Nat.eqb_eq in L. split; [apply pairs_ok; exact P|]. split; [exact L|]. rewrite L. clear P L.
  destruct I as [<-|[<-|[<-|[<-|[]]]]]; cbn [workable ratios dimensions]; (split; [|first [left; discriminate|right; discriminate]]); intros k K; try exact I; ten_times.
Qed.
(** on balance volume in dollars and in cents: the same trades, a hundred times the money *)
Example C95_case : let c := cOBV in let ob := small_of ora0 c 1 ten_days in let ob' := grown_of ora0 c 100 100 ten_days in let a := zq 100 in
  let cv := closing (map (fun k => (Z.of_nat k, F (nth (k - 1) closes_ten 0%Z))) (seq 1 10)) in
  let r := snd (get_ti_simulation ob (RFrame cv) (VInt 40) (VFloat (F 2))) in let r' := snd (get_ti_simulation ob' (RFrame (repriced a cv)) (VFloat (F 4000)) (VFloat (F 2))) in
  unit_pair ora0 c 1 100 100 ten_days ob ob' /\ limit_in a (VInt 40) (VFloat (F 4000)) /\ unit_free c /\
  (forall k, (k < days_given ob)%nat -> workable c (days_given ob) k (hi_of ten_days) (lo_of ten_days) (cl_of ten_days) (vo_of ten_days)) /\
  match r, r' with
  | Ok (st, _), Ok (st', _) => map x_action (data st') = map x_action (data st) /\ existsb (fun d => match x_action d with Some _ => true | None => false end) (data st) = true /\
      forallb (fun p => neqb (x_balance (snd p)) (nmul (Fin a) (x_balance (fst p)))) (combine (data st) (data st')) = true /\ existsb (fun d => negb (neqb (x_balance d) (F 0))) (data st) = true
  | _, _ => False
  end.
Proof.
  cbv zeta. split; [apply pairs_ok; vm_compute; reflexivity|]. split; [right; exists (F 40); split; [reflexivity|]; cbn; f_equal; f_equal; apply Qc_is_canon; reflexivity|].
  split; [exact I|]. split; [intros; exact I|]. vm_compute. auto.
Qed.
Example C95_data_case : forallb (fun c => pairs ora0 c 1 100 100 ten_days &&
  match get_ti_signal (small_of ora0 c 1 ten_days), get_ti_signal (grown_of ora0 c 100 100 ten_days) with Ok Buy, Ok Buy => true | Ok Sell, Ok Sell => true | _, _ => false end)
  [cPRF (VStr "LONG") (VFloat (D 1 10)); cWR (VInt 3); cPRC (VInt 3); cPOSC (VInt 3) (VInt 2)] = true.
Proof. vm_compute. reflexivity. Qed.
