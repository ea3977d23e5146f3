(** * PropsMissing: what a missing price does to the published values.

    [uses i]: for every published column the prices a value cannot do without.  [blanks i]:
    the columns that never come back after a missing price.  [sparse x k f]: up to day k the
    column holds the prices f, where None is a missing one (GapSpec). *)
From Coq Require Import ZArith QArith Qcanon Bool List String PeanoNat Lia.
From Verif Require Import Num NumFacts Pandas Sim Frame FrameSpec Ind Signal Api IndSpec ApiSpec RangeSpec PropsApi PropsRange ValueSpec ValueApi PropsValue CumulApi PropsCumul FormulaSpec FormulaApi PropsFormula GapSpec GapApi GapMore.
Import ListNotations.
Open Scope list_scope. Open Scope string_scope. Open Scope Qc_scope.

(** ** C82 No value is published from prices that are not there *)
Theorem C82_gap_shown o c raw b ob name x days d k : wf_raw raw ->
  snd (construct o c (RFrame raw) (VBool b)) = Ok ob ->
  In (name, x, days) (uses (ob_ind ob)) -> In d days -> (d <= k)%nat ->
  given x ob (k - d) = NaN -> shown name ob k = NaN.
Proof. exact (fun W H => gap_shown o raw b ob c W H name x days d k). Qed.
Print Assumptions C82_gap_shown.

(** ** C83 Running values lost for good *)
Theorem C83_lost_for_good o c raw b ob name x first delay j k : wf_raw raw ->
  snd (construct o c (RFrame raw) (VBool b)) = Ok ob ->
  In (name, x, first, delay) (blanks (ob_ind ob)) -> (first <= j)%nat -> (j + delay <= k)%nat ->
  given x ob j = NaN -> shown name ob k = NaN.
Proof. exact (fun W H => blank_shown o raw b ob c W H name x first delay j k). Qed.
Print Assumptions C83_lost_for_good.
(** the parabolic SAR, after a day with neither high nor low *)
Theorem C83_parabolic_sar o raw b ob j k : wf_raw raw ->
  snd (construct o cPSAR (RFrame raw) (VBool b)) = Ok ob -> (j < k)%nat ->
  given "high" ob j = NaN -> given "low" ob j = NaN -> shown "sar" ob k = NaN.
Proof. exact (sar_lost o raw b ob j k). Qed.
Print Assumptions C83_parabolic_sar.

(** ** C84 Values that go on without the price *)
(** the exponential average repeats yesterday's value *)
Theorem C84_average_waits o raw b ob p k : wf_raw raw ->
  snd (construct o (cMA p (VStr "exponential")) (RFrame raw) (VBool b)) = Ok ob ->
  (S k < days_given ob)%nat -> given "close" ob (S k) = NaN ->
  shown "ma-exponential" ob (S k) = shown "ma-exponential" ob k.
Proof. exact (fun W => ema_waits o raw b ob W p k). Qed.
Print Assumptions C84_average_waits.
Theorem C84_macd_waits o raw b ob k : wf_raw raw ->
  snd (construct o cMACD (RFrame raw) (VBool b)) = Ok ob ->
  (S k < days_given ob)%nat -> given "close" ob (S k) = NaN ->
  shown "macd" ob (S k) = shown "macd" ob k.
Proof. exact (fun W => macd_waits o raw b ob W k). Qed.
Print Assumptions C84_macd_waits.
(** after g days without a price the next one weighs more: the old average has decayed once for
    every day passed, and the two weights are scaled to add up to one *)
Theorem C84_average_resumes o raw b ob p j g c y : wf_raw raw ->
  snd (construct o (cMA p (VStr "exponential")) (RFrame raw) (VBool b)) = Ok ob ->
  known (given "close" ob) j c -> (forall i, (j < i)%nat -> (i <= j + g)%nat -> given "close" ob i = NaN) ->
  given "close" ob (S (j + g)) = Fin y -> (nat_arg p <= S (S j))%nat ->
  let a := span (nat_arg p) in
  shown "ma-exponential" ob (S (j + g)) = Fin (r4 (((1 - a) ^ S g * ema a c j + a * y) / ((1 - a) ^ S g + a))).
Proof. exact (fun W => ema_resumes o raw b ob W p j g c y). Qed.
Print Assumptions C84_average_resumes.
(** the regression line and the commodity channel index take a missing price for 0 *)
Theorem C84_regression_counts_zero o raw b ob p k c : wf_raw raw ->
  snd (construct o (cLRI p) (RFrame raw) (VBool b)) = Ok ob -> (k < days_given ob)%nat -> sparse (given "close" ob) k c ->
  let n := nat_arg p in shown "lri" ob k = from (n - 1) k (Fin (r4 (end_last (or_zero c) n k))).
Proof. exact (fun W => regression_counts_zero o raw b ob W p k c). Qed.
Print Assumptions C84_regression_counts_zero.
Theorem C84_channel_counts_zero o raw b ob p k h l c : wf_raw raw ->
  snd (construct o (cCCI p) (RFrame raw) (VBool b)) = Ok ob -> (k < days_given ob)%nat ->
  sparse (given "high" ob) k h -> sparse (given "low" ob) k l -> sparse (given "close" ob) k c ->
  let n := nat_arg p in let tp := typical (or_zero h) (or_zero l) (or_zero c) in let mean := mean_last tp n k in
  let spread := mean_last (fun j => abs (mean - tp j)) n k in
  shown "cci" ob k = from (n - 1) k (rn (ratio (tp k - mean) (Q2Qc (15 # 1000) * spread))).
Proof. exact (fun W => channel_counts_zero o raw b ob W p k h l c). Qed.
Print Assumptions C84_channel_counts_zero.
(** the relative strength index takes it for no change, on its own day and on the next *)
Theorem C84_strength_counts_nothing o raw b ob p k c : wf_raw raw ->
  snd (construct o (cRSI p) (RFrame raw) (VBool b)) = Ok ob -> (k < days_given ob)%nat -> sparse (given "close" ob) k c ->
  let n := nat_arg p in
  let average f := run_from n (fun prev y => r4 (wilders n prev y)) (mean_last f n n) f k in
  let up := average (fun j => r4 (gain (move c j))) in let down := average (fun j => r4 (loss (move c j))) in
  shown "rsi" ob k = from n k (rn (ratio (zq 100 * up) (up + down))).
Proof. exact (fun W => strength_counts_nothing o raw b ob W p k c). Qed.
Print Assumptions C84_strength_counts_nothing.
(** so does the on balance volume *)
Theorem C84_volume_waits o raw b ob k w : wf_raw raw ->
  snd (construct o cOBV (RFrame raw) (VBool b)) = Ok ob -> (S k < days_given ob)%nat ->
  given "close" ob k = NaN \/ given "close" ob (S k) = NaN ->
  shown "obv" ob k = Fin w -> shown "obv" ob (S k) = Fin w.
Proof. exact (fun W => obv_waits o raw b ob W k w). Qed.
Print Assumptions C84_volume_waits.
(** the typical price is the mean of those of the three prices that are there *)
Theorem C84_typical_of_rest o raw b ob p k h l c : wf_raw raw ->
  snd (construct o (cTP p) (RFrame raw) (VBool b)) = Ok ob -> (k < days_given ob)%nat ->
  given "high" ob k = cell_of h -> given "low" ob k = cell_of l -> given "close" ob k = cell_of c ->
  let there := flat_map (fun x => match x with Some q => [q] | None => [] end) [h; l; c] in
  shown "tp" ob k = rn (ratio (fold_right Qcplus 0 there) (nq (List.length there))).
Proof. exact (fun W => typical_of_rest o raw b ob W p k h l c). Qed.
Print Assumptions C84_typical_of_rest.

(** ** Cases *)
(** data without the prices of one day *)
Definition without (i : nat) (f : rawframe) : rawframe :=
  mkRaw (r_datetime f) (r_labels f) (r_numeric f)
    (map (fun p => let '(k, r) := p in (fst r, if Nat.eqb k i then map (fun _ => NaN) (snd r) else snd r)) (combine (seq 0 (List.length (r_rows f))) (r_rows f))).
Definition holed := without 25 (bars month).
Definition on_hole (c : ctor) := the (made ora0 c holed false).
Definition there (c : ctor) (name : string) : list bool := map (fun k => isfin (shown name (on_hole c) k)) (seq 24 6).

(** a value is missing exactly where [uses] says, among the complete days around row 25 *)
Example C82_case : map (fun c => there c (fst (fst (hd ("", "", []) (uses (ob_ind (on_hole c))))))) [cWC; cMOM (VInt 2); cBB (VInt 3) (VFloat (F 2)); cPCH (VInt 2); cSO (VInt 2) (VInt 3) (VInt 2) (VStr "simple"); cCMO (VInt 2); cSWI] =
  [[true; false; true; true; true; true]; [true; false; true; false; true; true]; [true; false; false; false; true; true]; [true; true; false; false; true; true]; [true; false; false; false; false; true];
   [true; false; false; false; true; true]; [true; false; false; true; true; true]] /\
  snd (construct ora0 (cMOM (VInt 2)) (RFrame holed) (VBool false)) = Ok (on_hole (cMOM (VInt 2))) /\ In ("mom", "close", [0; 2]%nat) (uses (ob_ind (on_hole (cMOM (VInt 2))))) /\
  given "close" (on_hole (cMOM (VInt 2))) 25 = NaN.
Proof. split; [vm_compute; reflexivity|]. split; [vm_compute; reflexivity|]. split; [vm_compute; auto|vm_compute; reflexivity]. Qed.

(** not all columns: some publish a number for a day on which no price at all is given *)
Definition still : list (ctor * string) :=
  [(cATR, "atr"); (cCO, "co"); (cCCI (VInt 3), "cci"); (cDEMA (VInt 3), "dema"); (cFIB, "rl_50.0"); (cICH, "kijun_sen"); (cLRI (VInt 3), "lri"); 
   (cMA (VInt 3) (VStr "exponential"), "ma-exponential"); (cMA (VInt 3) (VStr "time_series"), "ma-time_series"); (cNVI, "nvi"); (cOBV, "obv"); (cPSAR, "sar");
   (cPVI, "pvi"); (cPROJ (VInt 3), "trigger_line"); (cRI (VInt 3) (VInt 3), "ri"); (cRSI (VInt 3), "rsi"); (cRVI (VInt 3), "rvi"); (cSMI (VInt 3) (VInt 3) (VInt 3), "smi"); (cTSF (VInt 3), "tsf");
   (cTEMA (VInt 3), "tema"); (cVCH (VInt 3) (VInt 3), "vch")].
Definition speaks (e : ctor * string) : bool :=
  match made ora0 (fst e) holed false with Some ob => forallb (fun x => isnan (given x ob 25)) (required (ob_ind ob)) && isfin (shown (snd e) ob 25) | None => false end.
Theorem C82_every_column_refuted : exists raw, wf_raw raw /\ Forall (fun e => exists ob, snd (construct ora0 (fst e) (RFrame raw) (VBool false)) = Ok ob /\
  (forall x, In x (required (ob_ind ob)) -> given x ob 25 = NaN) /\ exists q, shown (snd e) ob 25 = Fin q) still.
Proof.
  exists holed. split.
  { split; [reflexivity|]. intros r H. cbn [r_labels holed without bars] in *. unfold holed, without in H. cbn [r_rows] in H. apply in_map_iff in H as ([k r0] & <- & I). apply in_combine_r in I.
    pose proof (proj2 (bars_wf month) r0 I) as L. cbn [snd]. destruct (Nat.eqb k 25); [rewrite map_length|]; exact L. }
  apply Forall_forall. intros e E. assert (A : forallb speaks still = true) by (vm_compute; reflexivity). apply (proj1 (forallb_forall _ _)) with (x := e) in A; [|exact E]. clear E.
  unfold speaks, made in A. destruct (snd (construct ora0 (fst e) (RFrame holed) (VBool false))) as [ob|]; [|discriminate]. exists ob. split; [reflexivity|]. apply andb_true_iff in A as [A B]. split.
  - intros x X. apply (proj1 (forallb_forall _ _)) with (x := x) in A; [|exact X]. destruct (given x ob 25); [reflexivity|discriminate..].
  - destruct (shown (snd e) ob 25) as [| | |q]; [discriminate..|]. exists q. reflexivity.
Qed.
Print Assumptions C82_every_column_refuted.

(** a price missing on row 25 leaves the rest of the column missing *)
Example C83_case : map (fun e => there (fst e) (snd e)) [(cWS (VInt 3), "ws"); (cPVT, "pvt"); (cRMI (VInt 3) (VInt 2), "rmi"); (cDMI, "dx"); (cMA (VInt 3) (VStr "variable"), "ma-variable"); (cPSAR, "sar"); (cRVI (VInt 3), "rvi")] =
  [[true; false; false; false; false; false]; [true; false; false; false; false; false]; [true; false; false; false; false; false]; [true; false; false; false; false; false];
   [true; false; false; false; false; false]; [true; true; false; false; false; false]; [true; true; true; false; false; false]].
Proof. vm_compute. reflexivity. Qed.

(** six closing prices, the third and the fourth missing *)
Definition six := [(1, F 10); (2, F 20); (3, NaN); (4, NaN); (5, F 40); (6, F 35)]%Z.
Definition six_known (j : nat) : option Qc := nth j [Some (zq 10); Some (zq 20); None; None; Some (zq 40); Some (zq 35)] None.
Definition on_six (c : ctor) := the (made ora0 c (closing six) false).
Definition six_of (c : ctor) (name : string) (l : list num) : bool := forallb (fun p => match fst p, snd p with NaN, NaN => true | x, y => neqb x y end) (combine (map (shown name (on_six c)) (seq 0 6)) l).
Definition ten_thousandths (z : Z) : num := Fin (Q2Qc (z # 10000)).
Example C84_case : wf_raw (closing six) /\
  (let c := cMA (VInt 2) (VStr "exponential") in snd (construct ora0 c (RFrame (closing six)) (VBool false)) = Ok (on_six c) /\
   known (given "close" (on_six c)) 1 (fun j => nth j [zq 10; zq 20] 0) /\ (forall i, (1 < i)%nat -> (i <= 1 + 2)%nat -> given "close" (on_six c) i = NaN) /\ given "close" (on_six c) (S (1 + 2)) = Fin (zq 40) /\
   six_of c "ma-exponential" [NaN; ten_thousandths 166667; ten_thousandths 166667; ten_thousandths 166667; ten_thousandths 387719; ten_thousandths 362573] = true) /\
  (let c := cLRI (VInt 3) in snd (construct ora0 c (RFrame (closing six)) (VBool false)) = Ok (on_six c) /\ sparse (given "close" (on_six c)) 5 six_known /\
   six_of c "lri" [NaN; NaN; ten_thousandths 50000; ten_thousandths (-33333); ten_thousandths 333333; ten_thousandths 425000] = true) /\
  (let c := cRSI (VInt 2) in snd (construct ora0 c (RFrame (closing six)) (VBool false)) = Ok (on_six c) /\ sparse (given "close" (on_six c)) 5 six_known /\
   six_of c "rsi" [NaN; NaN; F 100; F 100; F 100; F 20] = true) /\
  (let f := without 4 ten in let ob c := the (made ora0 c f false) in
   snd (construct ora0 cOBV (RFrame f) (VBool false)) = Ok (ob cOBV) /\ given "close" (ob cOBV) 4 = NaN /\ map (fun k => neqb (shown "obv" (ob cOBV) k) (F 70)) [3; 4; 5; 6]%nat = [true; true; true; false]) /\
  (let f := hlc [(F 12, F 8, F 10); (F 12, NaN, F 11); (NaN, NaN, NaN)] in let c := cTP (VInt 1) in let ob := the (made ora0 c f false) in
   snd (construct ora0 c (RFrame f) (VBool false)) = Ok ob /\ neqb (shown "tp" ob 0) (F 10) && neqb (shown "tp" ob 1) (ten_thousandths 115000) && isnan (shown "tp" ob 2) = true).
Proof.
  split; [split; [reflexivity|intros r R; cbn in R; repeat (destruct R as [<- | R]; [reflexivity|]); destruct R]|]. cbv zeta.
  split; [|split; [|split; [|split]]].
  - split; [vm_compute; reflexivity|]. split; [|split; [|split; vm_compute; reflexivity]].
    + intros j J. do 2 (destruct j as [|j]; [vm_compute; reflexivity|]). lia.
    + intros j J L. do 4 (destruct j as [|j]; [first [lia|vm_compute; reflexivity]|]). lia.
  - split; [vm_compute; reflexivity|]. split; [|vm_compute; reflexivity]. intros j J. do 6 (destruct j as [|j]; [vm_compute; reflexivity|]). lia.
  - split; [vm_compute; reflexivity|]. split; [|vm_compute; reflexivity]. intros j J. do 6 (destruct j as [|j]; [vm_compute; reflexivity|]). lia.
  - repeat split; vm_compute; reflexivity.
  - repeat split; vm_compute; reflexivity.
Qed.
Example C84_more_cases :
  (let ob := the (made ora0 cMACD (without 27 (bars month)) false) in snd (construct ora0 cMACD (RFrame (without 27 (bars month))) (VBool false)) = Ok ob /\ given "close" ob 27 = NaN /\
   isfin (shown "macd" ob 26) && neqb (shown "macd" ob 27) (shown "macd" ob 26) && negb (neqb (shown "macd" ob 28) (shown "macd" ob 26)) = true) /\
  (let f := hlc [(F 12, F 8, F 10); (F 13, F 9, F 11); (NaN, F 9, F 12); (F 15, F 11, F 13)] in let c := cCCI (VInt 2) in let ob := the (made ora0 c f false) in
   snd (construct ora0 c (RFrame f) (VBool false)) = Ok ob /\ sparse (given "high" ob) 3 (fun j => nth j [Some (zq 12); Some (zq 13); None; Some (zq 15)] None) /\
   sparse (given "low" ob) 3 (fun j => nth j [Some (zq 8); Some (zq 9); Some (zq 9); Some (zq 11)] None) /\ sparse (given "close" ob) 3 (fun j => nth j [Some (zq 10); Some (zq 11); Some (zq 12); Some (zq 13)] None) /\
   neqb (shown "cci" ob 2) (ten_thousandths (-666667)) && neqb (shown "cci" ob 3) (ten_thousandths 666667) = true).
Proof.
  cbv zeta. split; [repeat split; vm_compute; reflexivity|].
  split; [vm_compute; reflexivity|]. split; [|split; [|split; [|vm_compute; reflexivity]]]; intros j J; do 4 (destruct j as [|j]; [vm_compute; reflexivity|]); lia.
Qed.
